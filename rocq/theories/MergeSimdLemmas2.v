(** Premultiplied mask merge and difference lanes, and whole rows. *)
From Coq Require Import ZArith List Lia Bool.
From Verif Require Import Common Simd MergeSpec Merge MergeLemmas MergeLemmas2 MergeSimd MergeSimdLanes
  MergeSimdLemmas.
Import ListNotations.
Open Scope Z_scope.

Lemma cond_neg16 : forall f (c : bool) t, neg16ok f -> 0 <= t < 65536 ->
  f (if c then 65535 else 0) t = if c then wrapu16 (- t) else t.
Proof. intros f c t F H. destruct (F t H) as [A B]. destruct c; assumption. Qed.
Lemma cond_neg32 : forall f (c : bool) t, neg32ok f -> 0 <= t < 4294967296 ->
  f (join16 (if c then 65535 else 0) (if c then 65535 else 0)) t = if c then wrapu32 (- t) else t.
Proof.
  intros f c t F H. destruct (F t H) as [A B].
  destruct c; [change (join16 65535 65535) with 4294967295|change (join16 0 0) with 0]; assumption.
Qed.

Lemma lane_pm_byte : forall sgn neg o x y m,
  (forall t, sgn t = if s16 t <? 0 then 65535 else 0) -> neg16ok neg ->
  sample 8 o -> sample 8 x -> sample 8 y -> sample 8 m ->
  l_pm_byte sgn neg o x y m = clampTo 8 (y + premulVal 8 x (maxOf 8 - m) o).
Proof.
  intros sgn neg o x y m Hs Hn Ho Hx Hy Hm.
  assert (HMX : maxOf 8 = 255) by reflexivity.
  assert (HA : 0 <= maxOf 8 - m <= maxOf 8) by (unfold sample in Hm; change (2 ^ 8) with 256 in Hm; lia).
  pose proof (premulVal_bound 8 x (maxOf 8 - m) o ltac:(lia) HA) as PB.
  assert (PC : premulVal 8 x (maxOf 8 - m) o
    = if x - o <? 0 then - magVal 8 (o - x) (maxOf 8 - m) else magVal 8 (x - o) (maxOf 8 - m))
    by (apply premulVal_cases; lia).
  unfold sample in *. change (2 ^ 8) with 256 in *. rewrite HMX in *.
  unfold l_pm_byte. cbv zeta. rewrite Hs. unfold sub16.
  rewrite (wrapu16_small o) by lia. rewrite (s16_wrap (x - o)) by lia.
  rewrite (cond_neg16 neg (x - o <? 0) (wrapu16 (x - o)) Hn (wrapu16_range _)).
  rewrite (wrapu16_small (255 - m)) by lia. unfold add16. rewrite mullo16_mod.
  assert (E : forall t, 0 <= t <= 255 ->
    l_div255 (wrapu16 (wrapu16 (t * (255 - m)) + 127)) = magVal 8 t (255 - m)).
  { intros t Ht. assert (0 <= t * (255 - m) <= 255 * 255) by nia.
    rewrite (wrapu16_small (t * (255 - m))), (wrapu16_small (t * (255 - m) + 127)) by lia.
    rewrite l_div255_ok by lia. reflexivity. }
  assert (F : forall v, 0 <= v + 255 <= 765 -> satu8of16 (wrapu16 v) = clampTo 8 v).
  { intros v Hv. unfold satu8of16, clampTo. rewrite s16_wrap by lia. rewrite HMX, clampZ_minmax by lia. lia. }
  destruct (Z.ltb_spec (x - o) 0) as [L|L].
  - rewrite (wrapu16_neg_wrap (x - o)). replace (- (x - o)) with (o - x) by ring.
    rewrite (wrapu16_small (o - x)) by lia. rewrite E by lia.
    pose proof (magVal_bound 8 (o - x) (255 - m) ltac:(lia) ltac:(lia) ltac:(lia)) as MB.
    pose proof (cond_neg16 neg true (magVal 8 (o - x) (255 - m)) Hn ltac:(lia)) as CN.
    cbv beta iota in CN. rewrite CN, wrap_16_add, PC. rewrite F by lia. f_equal. ring.
  - rewrite (wrapu16_small (x - o)) by lia. rewrite E by lia.
    pose proof (magVal_bound 8 (x - o) (255 - m) ltac:(lia) ltac:(lia) ltac:(lia)) as MB.
    pose proof (cond_neg16 neg false (magVal 8 (x - o) (255 - m)) Hn ltac:(lia)) as CN.
    cbv beta iota in CN. rewrite CN, PC. rewrite F by lia. f_equal. ring.
Qed.

Lemma lane_pm_word : forall sgn neg16 neg32 d o x y m, 9 <= d <= 16 ->
  sgn x = (if x <? o then 65535 else 0) -> neg16ok neg16 -> neg32ok neg32 ->
  sample d o -> sample d x -> sample d y -> sample d m ->
  l_pm_word sgn neg16 neg32 d o x y m = wrapu32 (y + premulVal d x (maxOf d - m) o).
Proof.
  intros sgn neg16 neg32 d o x y m Hd Hs H16 H32 Ho Hx Hy Hm.
  pose proof (pow_word d Hd) as HP. pose proof (maxOf_half d ltac:(lia)) as HH.
  pose proof (pow2_half d ltac:(lia)) as H2.
  assert (HM : maxOf d = 2 ^ d - 1) by reflexivity. unfold sample in *.
  rewrite premulVal_cases by lia.
  unfold l_pm_word. cbv zeta. rewrite Hs. unfold sub16.
  rewrite (wrapu16_small (2 ^ d - 1)) by lia. rewrite (wrapu16_small o) by lia. rewrite <- HM in *.
  rewrite (wrapu16_small (maxOf d - m)) by lia.
  rewrite (cond_neg16 neg16 (x <? o) (wrapu16 (x - o)) H16 (wrapu16_range _)).
  assert (J : join16 y 0 = y) by (unfold join16; lia). rewrite J.
  assert (E : forall t, 0 <= t <= maxOf d ->
    l_divX d (add32 (join16 (mullo16 (maxOf d - m) t) (mulhiu16 (maxOf d - m) t)) (maxOf d / 2))
    = magVal d t (maxOf d - m)).
  { intros t Ht. rewrite mul_join by lia. assert (0 <= (maxOf d - m) * t <= maxOf d * maxOf d) by nia.
    assert (maxOf d * maxOf d <= 65535 * 65535) by nia.
    unfold add32. rewrite wrapu32_small by lia. rewrite l_divX_ok; [|exact Hd|fold (maxOf d); lia].
    unfold magVal. fold (maxOf d). f_equal. ring. }
  assert (A1 : 0 <= maxOf d - m <= maxOf d) by lia.
  destruct (Z.ltb_spec x o) as [L|L].
  - rewrite (wrapu16_neg_wrap (x - o)). replace (- (x - o)) with (o - x) by ring.
    rewrite (wrapu16_small (o - x)) by lia. rewrite E by lia.
    pose proof (magVal_bound d (o - x) (maxOf d - m) ltac:(lia) ltac:(lia) A1) as MB.
    pose proof (cond_neg32 neg32 true (magVal d (o - x) (maxOf d - m)) H32 ltac:(lia)) as CN.
    cbv beta iota in CN. rewrite CN. destruct (Z.ltb_spec (x - o) 0); [|lia].
    unfold add32, wrapu32. rewrite Zplus_mod_idemp_l. f_equal. ring.
  - rewrite (wrapu16_small (x - o)) by lia. rewrite E by lia.
    pose proof (magVal_bound d (x - o) (maxOf d - m) ltac:(lia) ltac:(lia) A1) as MB.
    pose proof (cond_neg32 neg32 false (magVal d (x - o) (maxOf d - m)) H32 ltac:(lia)) as CN.
    cbv beta iota in CN. rewrite CN. destruct (Z.ltb_spec (x - o) 0); [lia|].
    unfold add32. f_equal. ring.
Qed.

Lemma bias_cmp : forall x o, 0 <= x < 65536 -> 0 <= o < 65536 ->
  cmpgt16 (wrapu16 (o - 32768)) (add16 x min16v) = if x <? o then 65535 else 0.
Proof.
  intros x o Hx Ho. unfold cmpgt16, add16, min16v.
  replace (wrapu16 (x + 32768)) with (wrapu16 (x - 32768)).
  2: { unfold wrapu16. replace (x + 32768) with (x - 32768 + 1 * 65536) by ring. symmetry; apply Z.mod_add; lia. }
  rewrite !s16_wrap by lia. destruct (Z.ltb_spec (x - 32768) (o - 32768)), (Z.ltb_spec x o); lia.
Qed.

Lemma lane_pm_word_avx : forall neg16 neg32 d o x y m, 9 <= d <= 16 ->
  neg16ok neg16 -> neg32ok neg32 -> sample d o -> sample d x -> sample d y -> sample d m ->
  l_pm_word_avx neg16 neg32 d o x y m = clampTo d (y + premulVal d x (maxOf d - m) o).
Proof.
  intros neg16 neg32 d o x y m Hd H16 H32 Ho Hx Hy Hm.
  pose proof (sample_le16 d x ltac:(lia) Hx). pose proof (sample_le16 d o ltac:(lia) Ho).
  unfold l_pm_word_avx. cbv zeta. rewrite lane_pm_word; try assumption; [|apply bias_cmp; assumption].
  pose proof (pow_word d Hd). unfold sample in *.
  pose proof (premulVal_bound d x (maxOf d - m) o ltac:(lia) ltac:(unfold maxOf; lia)) as PB.
  unfold satu16of32. rewrite s32_wrap by lia. rewrite (wrapu16_small (2 ^ d - 1)) by lia.
  rewrite clampZ_minmax by lia. unfold minu16, clampTo, maxOf in *.
  set (v := y + premulVal d x (2 ^ d - 1 - m) o) in *.
  destruct (Z.ltb_spec (Z.min 65535 (Z.max 0 v)) (2 ^ d - 1)); lia.
Qed.

Lemma lane_pm_word_sse2 : forall d o x y m, 9 <= d <= 16 ->
  sample d o -> sample d x -> sample d y -> sample d m ->
  l_pm_word_sse2 d o x y m = clampTo d (y + premulVal d x (maxOf d - m) o).
Proof.
  intros d o x y m Hd Ho Hx Hy Hm.
  pose proof (sample_le16 d x ltac:(lia) Hx). pose proof (sample_le16 d o ltac:(lia) Ho).
  unfold l_pm_word_sse2. cbv zeta.
  rewrite lane_pm_word; try assumption; [|apply bias_cmp; assumption|exact neg16_or|exact neg32_or].
  pose proof (pow_word d Hd). unfold sample in *.
  pose proof (premulVal_bound d x (maxOf d - m) o ltac:(lia) ltac:(unfold maxOf; lia)) as PB.
  rewrite bias_pack by lia. rewrite (wrapu16_small (2 ^ d - 1)) by lia.
  rewrite clampZ_minmax by lia. unfold clampTo, maxOf in *.
  set (v := y + premulVal d x (2 ^ d - 1 - m) o) in *. unfold min16. rewrite !s16_wrap by lia.
  destruct (Z.ltb_spec (Z.min 65535 (Z.max 0 v) - 32768) (2 ^ d - 1 - 32768)).
  - rewrite unbias by lia. lia.
  - rewrite (unbias (2 ^ d - 1)) by lia. lia.
Qed.

(** ** differences *)

Lemma lane_makediff_byte : forall x y, sample 8 x -> sample 8 y ->
  l_makediff_byte x y = clampTo 8 (x - y + 128).
Proof.
  unfold sample. change (2 ^ 8) with 256. intros x y Hx Hy.
  assert (B : forall v, 0 <= v < 256 -> s8 (add8 v min8v) = v - 128).
  { intros v Hv. rewrite <- (s8_wrap (v - 128)) by lia. f_equal. unfold add8, min8v, wrapu8.
    replace (v + 128) with (v - 128 + 1 * 256) by ring. apply Z.mod_add; lia. }
  unfold l_makediff_byte, subs8. rewrite !B by lia. rewrite clampZ_minmax by lia.
  unfold sub8, min8v, wrapu8. rewrite Zminus_mod_idemp_l.
  replace (Z.min 127 (Z.max (-128) (x - 128 - (y - 128))) - 128)
    with (clampTo 8 (x - y + 128) + (-1) * 256) by (unfold clampTo, maxOf; change (2 ^ 8 - 1) with 255; lia).
  rewrite Z.mod_add by lia. apply Z.mod_small. unfold clampTo, maxOf; change (2 ^ 8 - 1) with 255; lia.
Qed.

Lemma lane_mergediff_byte : forall x y, sample 8 x -> sample 8 y ->
  l_mergediff_byte x y = clampTo 8 (x + (y - 128)).
Proof.
  unfold sample. change (2 ^ 8) with 256. intros x y Hx Hy.
  assert (B : forall v, 0 <= v < 256 -> s8 (add8 v min8v) = v - 128).
  { intros v Hv. rewrite <- (s8_wrap (v - 128)) by lia. f_equal. unfold add8, min8v, wrapu8.
    replace (v + 128) with (v - 128 + 1 * 256) by ring. apply Z.mod_add; lia. }
  unfold l_mergediff_byte, adds8. rewrite !B by lia. rewrite clampZ_minmax by lia.
  unfold sub8, min8v, wrapu8. rewrite Zminus_mod_idemp_l.
  replace (Z.min 127 (Z.max (-128) (x - 128 + (y - 128))) - 128)
    with (clampTo 8 (x + (y - 128)) + (-1) * 256) by (unfold clampTo, maxOf; change (2 ^ 8 - 1) with 255; lia).
  rewrite Z.mod_add by lia. apply Z.mod_small. unfold clampTo, maxOf; change (2 ^ 8 - 1) with 255; lia.
Qed.

Lemma lane_diff_word : forall op g d x y, 9 <= d <= 16 -> sample d x -> sample d y ->
  (forall a b, -32768 <= a < 32768 -> -32768 <= b < 32768 ->
     op (wrapu16 a) (wrapu16 b) = wrapu16 (clampZ (-32768) 32767 (g a b))) ->
  l_diff_word op d x y
  = clampTo d (g (x - 2 ^ (d - 1)) (y - 2 ^ (d - 1)) + 2 ^ (d - 1)).
Proof.
  intros op g d x y Hd Hx Hy Hop. pose proof (pow_word d Hd). pose proof (pow2_half d ltac:(lia)).
  unfold sample in *. unfold l_diff_word. cbv zeta.
  set (h := 2 ^ (d - 1)) in *. replace (- (h - 1) - 1) with (- h) by ring.
  assert (B : forall v, 0 <= v < 2 ^ d -> add16 v (wrapu16 (- h)) = wrapu16 (v - h)).
  { intros v Hv. unfold add16, wrapu16. rewrite Zplus_mod_idemp_r. reflexivity. }
  rewrite !B by lia. rewrite Hop by lia.
  unfold max16. rewrite clampZ_minmax by lia.
  set (v := g (x - h) (y - h)). rewrite (s16_wrap (Z.min _ _)) by lia. rewrite (s16_wrap (- h)) by lia.
  assert (E1 : (if Z.min 32767 (Z.max (-32768) v) <? - h then wrapu16 (- h)
                else wrapu16 (Z.min 32767 (Z.max (-32768) v)))
             = wrapu16 (Z.max (- h) (Z.min 32767 v))).
  { destruct (Z.ltb_spec (Z.min 32767 (Z.max (-32768) v)) (- h)); f_equal; lia. }
  rewrite E1. unfold min16. rewrite !s16_wrap by lia.
  assert (E2 : (if Z.max (- h) (Z.min 32767 v) <? h - 1 then wrapu16 (Z.max (- h) (Z.min 32767 v))
                else wrapu16 (h - 1)) = wrapu16 (Z.max (- h) (Z.min (h - 1) v))).
  { destruct (Z.ltb_spec (Z.max (- h) (Z.min 32767 v)) (h - 1)); f_equal; lia. }
  rewrite E2. unfold sub16, wrapu16. rewrite <- Zminus_mod. unfold clampTo, maxOf.
  rewrite Z.mod_small by lia. lia.
Qed.

Lemma lane_makediff_word : forall d x y, 9 <= d <= 16 -> sample d x -> sample d y ->
  l_diff_word subs16 d x y = clampTo d (x - y + 2 ^ (d - 1)).
Proof.
  intros d x y Hd Hx Hy. rewrite (lane_diff_word subs16 Z.sub) by
    (try assumption; intros; unfold subs16; rewrite !s16_wrap by lia; reflexivity).
  f_equal. ring.
Qed.
Lemma lane_mergediff_word : forall d x y, 9 <= d <= 16 -> sample d x -> sample d y ->
  l_diff_word adds16 d x y = clampTo d (x + (y - 2 ^ (d - 1))).
Proof.
  intros d x y Hd Hx Hy. rewrite (lane_diff_word adds16 Z.add) by
    (try assumption; intros; unfold adds16; rewrite !s16_wrap by lia; reflexivity).
  f_equal. ring.
Qed.

(** ** whole rows *)

Lemma chunk_pos : forall i d, (0 < chunk i d)%nat.
Proof. intros i d. unfold chunk. destruct i; destruct (d <=? 8); vm_compute; lia. Qed.

(* rows of a plane: stride/bytesPerSample samples, the first n of them visible *)
Definition rowOk (K n : nat) (a : list Z) : Prop := (n <= length a)%nat /\ Nat.modulo (length a) K = O.

Definition agrees (n : nat) (v c : outcome (list Z)) (d : list Z) : Prop :=
  exists r rc, v = Ok r /\ c = Ok rc /\ length r = length d /\ length rc = length d /\
    firstn n r = firstn n rc.

Ltac split8 d :=
  let E := fresh "E" in
  destruct (Z.leb_spec d 8) as [E|E]; [replace d with 8 in * by lia|].

Lemma merge_rows : forall i depth w n a b d, 8 <= depth <= 16 -> 1 <= w <= 32767 ->
  let i' := noAvx512 i in
  rowOk (chunk i' depth) n a -> length b = length a -> length d = length a ->
  Forall (sample depth) (firstn n a) -> Forall (sample depth) (firstn n b) ->
  agrees n (simdRow (chunk i' depth) (k2 (simd_merge i' depth w)) n [a; b] d)
           (cRow (f2 (mergeKernel depth w)) n [a; b] d) d.
Proof.
  intros i depth w n a b d Hd Hw i' [R1 R2] LB LD SA SB. unfold agrees.
  assert (X : forall K ker g, K = chunk i' depth ->
     (forall a b, length a = K -> length b = K -> ker a b = map2 g a b) ->
     (forall x y, sample depth x -> sample depth y -> g x y = mergeVal w x y) ->
     exists r rc, simdRow K (k2 ker) n [a; b] d = Ok r /\
       cRow (f2 (mergeKernel depth w)) n [a; b] d = Ok rc /\
       length r = length d /\ length rc = length d /\ firstn n r = firstn n rc).
  { intros K ker g -> Hk Hg. apply (simdRow2_eq_c _ ker g _ (sample depth) (sample depth)); auto.
    - apply chunk_pos.
    - intros x y Sx Sy. rewrite mergeKernel_exact by (assumption || lia). apply Hg; assumption. }
  unfold simd_merge. split8 depth.
  - assert (S8 : forall x, sample 8 x -> 0 <= x < 256) by (intros x H; exact H).
    destruct i; subst i'; cbn [noAvx512].
    + apply (X _ _ (l_merge_byte_sse2 w) eq_refl); [apply k_merge_byte_sse2|].
      intros; apply lane_merge_byte_sse2; auto; lia.
    + apply (X _ _ (l_merge_byte_avx2 w) eq_refl); [apply k_merge_byte_avx2|].
      intros; apply lane_merge_byte_avx2; auto; lia.
    + apply (X _ _ (l_merge_byte_avx2 w) eq_refl); [apply k_merge_byte_avx2|].
      intros; apply lane_merge_byte_avx2; auto; lia.
  - assert (S16 : forall x, sample depth x -> 0 <= x < 65536) by (intros; eapply sample_le16; [|eassumption]; lia).
    assert (CK : forall j, chunk j depth = match j with SSE2 => 8 | AVX2 => 16 | AVX512 => 32 end%nat).
    { intros j. unfold chunk. destruct (Z.leb_spec depth 8); [lia|]. destruct j; reflexivity. }
    rewrite CK in *. destruct i; subst i'; cbn [noAvx512] in *.
    + apply (X _ _ (l_merge_word w) eq_refl); [apply k_merge_word_sse2|].
      intros; apply lane_merge_word; auto.
    + apply (X _ _ (l_merge_word w) eq_refl); [apply k_merge_word_avx2|].
      intros; apply lane_merge_word; auto.
    + apply (X _ _ (l_merge_word w) eq_refl); [apply k_merge_word_avx2|].
      intros; apply lane_merge_word; auto.
Qed.

Lemma chunk_word : forall depth, 8 < depth -> forall j,
  chunk j depth = match j with SSE2 => 8 | AVX2 => 16 | AVX512 => 32 end%nat.
Proof. intros depth E j. unfold chunk. destruct (Z.leb_spec depth 8); [lia|]. destruct j; reflexivity. Qed.

Lemma maskmerge_rows : forall i depth n a b m d, 8 <= depth <= 16 ->
  rowOk (chunk i depth) n a -> length b = length a -> length m = length a -> length d = length a ->
  Forall (sample depth) (firstn n a) -> Forall (sample depth) (firstn n b) ->
  Forall (sample depth) (firstn n m) ->
  agrees n (simdRow (chunk i depth) (k3 (simd_maskmerge i depth)) n [a; b; m] d)
           (cRow (f3 (maskMergeKernel depth)) n [a; b; m] d) d.
Proof.
  intros i depth n a b m d Hd [R1 R2] LB LM LD SA SB SM. unfold agrees.
  assert (X : forall K ker g, K = chunk i depth ->
     (forall a b c, length a = K -> length b = K -> length c = K -> ker a b c = map3 g a b c) ->
     (forall x y z, sample depth x -> sample depth y -> sample depth z -> g x y z = maskVal depth x y z) ->
     exists r rc, simdRow K (k3 ker) n [a; b; m] d = Ok r /\
       cRow (f3 (maskMergeKernel depth)) n [a; b; m] d = Ok rc /\
       length r = length d /\ length rc = length d /\ firstn n r = firstn n rc).
  { intros K ker g -> Hk Hg.
    apply (simdRow3_eq_c _ ker g _ (sample depth) (sample depth) (sample depth)); auto.
    - apply chunk_pos.
    - intros x y z Sx Sy Sz. rewrite maskKernel_exact by (assumption || lia). apply Hg; assumption. }
  unfold simd_maskmerge. split8 depth.
  - destruct i.
    + apply (X _ _ (fun x y m => l_mm_byte (join8 x 0) (join8 y 0) (join8 m 0)) eq_refl);
        [apply k_mm_byte_sse2|]. intros. rewrite !join8_0. apply lane_mm_byte; assumption.
    + apply (X _ _ l_mm_byte eq_refl); [apply k_mm_byte_avx2|]. intros; apply lane_mm_byte; assumption.
    + apply (X _ _ l_mm_byte eq_refl); [apply k_mm_byte_avx512|]. intros; apply lane_mm_byte; assumption.
  - rewrite (chunk_word depth E) in *. destruct i.
    + apply (X _ _ (l_mm_word_sse2 depth) eq_refl); [apply k_mm_word_sse2|].
      intros; apply lane_mm_word_sse2; assumption || lia.
    + apply (X _ _ (l_mm_word_avx depth) eq_refl); [apply k_mm_word_avx2|].
      intros; apply lane_mm_word_avx; assumption || lia.
    + apply (X _ _ (l_mm_word_avx depth) eq_refl); [apply k_mm_word_avx512|].
      intros; apply lane_mm_word_avx; assumption || lia.
Qed.

Lemma premul_rows : forall i depth o n a b m d, 8 <= depth <= 16 -> sample depth o ->
  rowOk (chunk i depth) n a -> length b = length a -> length m = length a -> length d = length a ->
  Forall (sample depth) (firstn n a) -> Forall (sample depth) (firstn n b) ->
  Forall (sample depth) (firstn n m) ->
  agrees n (simdRow (chunk i depth) (k3 (simd_premul i depth o)) n [a; b; m] d)
           (cRow (f3 (maskMergePremulKernel depth o)) n [a; b; m] d) d.
Proof.
  intros i depth o n a b m d Hd Ho [R1 R2] LB LM LD SA SB SM. unfold agrees.
  assert (X : forall K ker g, K = chunk i depth ->
     (forall a b c, length a = K -> length b = K -> length c = K -> ker a b c = map3 g a b c) ->
     (forall x y z, sample depth x -> sample depth y -> sample depth z ->
        g x y z = clampTo depth (y + premulVal depth x (maxOf depth - z) o)) ->
     exists r rc, simdRow K (k3 ker) n [a; b; m] d = Ok r /\
       cRow (f3 (maskMergePremulKernel depth o)) n [a; b; m] d = Ok rc /\
       length r = length d /\ length rc = length d /\ firstn n r = firstn n rc).
  { intros K ker g -> Hk Hg.
    apply (simdRow3_eq_c _ ker g _ (sample depth) (sample depth) (sample depth)); auto.
    - apply chunk_pos.
    - intros x y z Sx Sy Sz. rewrite maskPremul_exact by (assumption || lia). apply Hg; assumption. }
  unfold simd_premul. split8 depth.
  - destruct i.
    + apply (X _ _ (fun x y m => l_pm_byte (fun t => cmplt16 t 0) (negIf selOr16 sub16) o
                         (join8 x 0) (join8 y 0) (join8 m 0)) eq_refl); [apply k_pm_byte_sse2|].
      intros. rewrite !join8_0. apply lane_pm_byte; try assumption; [reflexivity|exact neg16_or].
    + apply (X _ _ (l_pm_byte (fun t => cmpgt16 0 t) (negIf selBlend16 sub16) o) eq_refl);
        [apply k_pm_byte_avx2|].
      intros; apply lane_pm_byte; try assumption; [reflexivity|exact neg16_blend].
    + apply (X _ _ (l_pm_byte (fun t => cmpgt16 0 t) (negIf selMask sub16) o) eq_refl);
        [apply k_pm_byte_avx512|].
      intros; apply lane_pm_byte; try assumption; [reflexivity|exact neg16_mask].
  - rewrite (chunk_word depth E) in *. destruct i.
    + apply (X _ _ (l_pm_word_sse2 depth o) eq_refl); [apply k_pm_word_sse2|].
      intros; apply lane_pm_word_sse2; assumption || lia.
    + apply (X _ _ (l_pm_word_avx (negIf selBlend16 sub16) (negIf selBlend32 sub32) depth o) eq_refl);
        [apply k_pm_word_avx2|].
      intros; apply lane_pm_word_avx; try (assumption || lia); [exact neg16_blend|exact neg32_blend].
    + apply (X _ _ (l_pm_word_avx negXor16 negXor32 depth o) eq_refl); [apply k_pm_word_avx512|].
      intros; apply lane_pm_word_avx; try (assumption || lia); [exact neg16_xor|exact neg32_xor].
Qed.

Lemma diff_rows : forall i depth n a b d, 8 <= depth <= 16 ->
  let i' := noAvx512 i in
  rowOk (chunk i' depth) n a -> length b = length a -> length d = length a ->
  Forall (sample depth) (firstn n a) -> Forall (sample depth) (firstn n b) ->
  agrees n (simdRow (chunk i' depth) (k2 (simd_makediff i' depth)) n [a; b] d)
           (cRow (f2 (makediffKernel depth)) n [a; b] d) d /\
  agrees n (simdRow (chunk i' depth) (k2 (simd_mergediff i' depth)) n [a; b] d)
           (cRow (f2 (mergediffKernel depth)) n [a; b] d) d.
Proof.
  intros i depth n a b d Hd i' [R1 R2] LB LD SA SB. unfold agrees, simd_makediff, simd_mergediff.
  set (K := chunk i' depth) in *.
  assert (HK : (0 < K)%nat) by apply chunk_pos.
  split8 depth.
  - split.
    + apply (simdRow2_eq_c _ _ l_makediff_byte _ (sample 8) (sample 8)); auto.
      * intros; apply k_makediff_byte; assumption.
      * intros; rewrite makediff_spec by (assumption || lia). apply lane_makediff_byte; assumption.
    + apply (simdRow2_eq_c _ _ l_mergediff_byte _ (sample 8) (sample 8)); auto.
      * intros; apply k_mergediff_byte; assumption.
      * intros; rewrite mergediff_spec by (assumption || lia). apply lane_mergediff_byte; assumption.
  - split.
    + apply (simdRow2_eq_c _ _ (l_diff_word subs16 depth) _ (sample depth) (sample depth)); auto.
      * intros; apply k_makediff_word; assumption.
      * intros; rewrite makediff_spec by (assumption || lia). apply lane_makediff_word; assumption || lia.
    + apply (simdRow2_eq_c _ _ (l_diff_word adds16 depth) _ (sample depth) (sample depth)); auto.
      * intros; apply k_mergediff_word; assumption.
      * intros; rewrite mergediff_spec by (assumption || lia). apply lane_mergediff_word; assumption || lia.
Qed.

(** A row of a plane is [stride] bytes, a multiple of the alignment (C07). *)
Lemma stride_rowOk : forall i depth n stride a, 8 <= depth <= 16 ->
  Nat.modulo stride (align i) = O ->
  (length a * (if Z.leb depth 8 then 1 else 2) = stride)%nat -> (n <= length a)%nat ->
  rowOk (chunk i depth) n a /\ rowOk (chunk (noAvx512 i) depth) n a.
Proof.
  intros i depth n stride a Hd Hm Hl Hn.
  assert (X : forall j, (exists q, align i = chunk j depth * (if Z.leb depth 8 then 1 else 2) * q)%nat ->
    rowOk (chunk j depth) n a).
  { intros j [q Hq]. split; [exact Hn|].
    assert (align i <> 0)%nat by (destruct i; discriminate).
    pose proof (Nat.div_mod stride (align i) H) as E. rewrite Hm, Nat.add_0_r in E.
    pose proof (chunk_pos j depth).
    apply Nat.mod_divides; [lia|]. exists (q * (stride / align i))%nat.
    destruct (depth <=? 8); nia. }
  split; apply X; unfold chunk, align, noAvx512; destruct (depth <=? 8); destruct i;
    try (exists 1%nat; reflexivity); try (exists 2%nat; reflexivity).
Qed.
