(** What one lane of each vector kernel computes: the shuffles, unpacks and packs
    cancel, so every kernel is the same function of the sources at each position. *)
From Coq Require Import ZArith List Lia Bool.
From Verif Require Import Common Simd Merge MergeSimd.
Import ListNotations.
Open Scope Z_scope.

Definition l_div255 (x : Z) : Z := srli16 7 (mulhiu16 x 32897).
Definition l_divX (depth x : Z) : Z := srl32 (shift_table depth) (mulhiu32 x (div_table depth)).

Definition l_merge_byte_sse2 (w a b : Z) : Z :=
  let x := join8 a 0 in let y := join8 b 0 in
  let t := slli16 1 (sub16 y x) in
  satu8of16 (add16 (add16 (mulhi16 t (wrapu16 w)) (srli16 15 (mullo16 t (wrapu16 w)))) x).
Definition l_merge_byte_avx2 (w x y : Z) : Z :=
  satu8of16 (add16 (mulhrs16 (sub16 y x) (wrapu16 w)) x).
Definition l_merge_word (w x y : Z) : Z :=
  let w2 := Z.min (Z.max w 1) 32767 in
  let wv := wrapu32 (w2 * 65536 + wrapu32 (32768 - w2)) in
  sub16 (sats16of32 (srai32 15 (add32 (madd16 wv
    (join16 (add16 x min16v) (add16 y min16v))) 16384))) min16v.

Definition l_mm_byte (x y w2 : Z) : Z :=
  satu8of16 (l_div255 (add16 (add16 (mullo16 x (sub16 255 w2)) (mullo16 y w2)) 127)).
Definition l_mm_sum (maxval w1 v1 w2 v2 : Z) : Z :=
  add32 (add32 (join16 (mullo16 w1 v1) (mulhiu16 w1 v1)) (join16 (mullo16 w2 v2) (mulhiu16 w2 v2)))
        (maxval / 2).
Definition l_mm_word_sse2 (depth v1 v2 w2 : Z) : Z :=
  let maxval := wrapu16 (2 ^ depth - 1) in
  sub16 (sats16of32 (add32 (l_divX depth (l_mm_sum maxval (sub16 maxval w2) v1 w2 v2)) min16d)) min16v.
Definition l_mm_word_avx (depth v1 v2 w2 : Z) : Z :=
  let maxval := wrapu16 (2 ^ depth - 1) in
  satu16of32 (l_divX depth (l_mm_sum maxval (sub16 maxval w2) v1 w2 v2)).

Definition l_pm_byte (sgn : Z -> Z) (neg : Z -> Z -> Z) (o x y w2 : Z) : Z :=
  let t := sub16 x (wrapu16 o) in
  let s := sgn t in
  satu8of16 (add16 (neg s (l_div255 (add16 (mullo16 (neg s t) (sub16 255 w2)) 127))) y).
Definition l_pm_word (sgn : Z -> Z) (neg16 neg32 : Z -> Z -> Z) (depth o x y w2 : Z) : Z :=
  let maxval := wrapu16 (2 ^ depth - 1) in
  let s := sgn x in
  let t := neg16 s (sub16 x (wrapu16 o)) in
  let w1 := sub16 maxval w2 in
  add32 (neg32 (join16 s s) (l_divX depth (add32 (join16 (mullo16 w1 t) (mulhiu16 w1 t)) (maxval / 2))))
        (join16 y 0).
Definition l_pm_word_sse2 (depth o x y w2 : Z) : Z :=
  let maxval := wrapu16 (2 ^ depth - 1) in
  sub16 (min16 (sats16of32 (add32
    (l_pm_word (fun v => cmplt16 (add16 v min16v) (wrapu16 (o - 32768)))
       (negIf selOr16 sub16) (negIf selOr32 sub32) depth o x y w2) min16d))
    (wrapu16 (maxval - 32768))) min16v.
Definition l_pm_word_avx (neg16 neg32 : Z -> Z -> Z) (depth o x y w2 : Z) : Z :=
  let maxval := wrapu16 (2 ^ depth - 1) in
  minu16 (satu16of32
    (l_pm_word (fun v => cmpgt16 (wrapu16 (o - 32768)) (add16 v min16v)) neg16 neg32 depth o x y w2))
    maxval.

Definition l_makediff_byte (x y : Z) : Z :=
  sub8 (subs8 (add8 x min8v) (add8 y min8v)) min8v.
Definition l_mergediff_byte (x y : Z) : Z :=
  sub8 (adds8 (add8 x min8v) (add8 y min8v)) min8v.
Definition l_diff_word (op : Z -> Z -> Z) (depth x y : Z) : Z :=
  let maxval := 2 ^ (depth - 1) - 1 in
  let minv := wrapu16 (- maxval - 1) in
  sub16 (min16 (max16 (op (add16 x minv) (add16 y minv)) minv) (wrapu16 maxval)) minv.

Ltac vred := cbv beta iota zeta delta [
  merge_byte_sse2 merge_byte_half_sse2 merge_byte_avx2 merge_byte_half_avx2 merge_word_simd
  merge_word_dhalf mask_merge_byte_sse2 mask_merge_byte_avx2 mask_merge_byte_avx512
  maskmerge_byte_half mm_sum mask_merge_word_sse2 mask_merge_word_avx premul_byte_half_sse2
  mask_merge_premul_byte_sse2 premul_byte_half_avx mask_merge_premul_byte_avx2
  mask_merge_premul_byte_avx512 premul_word_dhalf mask_merge_premul_word_sse2
  mask_merge_premul_word_avx2 mask_merge_premul_word_avx512 div255 divX
  unpacklo32 unpackhi32 mul_epu32 shuffle3131 interleave set1 words dwords
  unpacklo8 unpackhi8 unpacklo16 unpackhi16 packus16 packs32 packus32 perBlock permute64 qword
  map2 map3 map firstn skipn app concat repeat nth Nat.mul Nat.add
  l_div255 l_divX l_merge_byte_sse2 l_merge_byte_avx2 l_merge_word l_mm_byte l_mm_sum
  l_mm_word_sse2 l_mm_word_avx l_pm_byte l_pm_word l_pm_word_sse2 l_pm_word_avx];
  reflexivity.

Lemma k_merge_byte_sse2 : forall w a b, length a = 16%nat -> length b = 16%nat ->
  merge_byte_sse2 w a b = map2 (l_merge_byte_sse2 w) a b.
Proof. intros w a b A B. lanes 16%nat a. lanes 16%nat b. vred. Qed.

Lemma k_merge_byte_avx2 : forall w a b, length a = 32%nat -> length b = 32%nat ->
  merge_byte_avx2 w a b = map2 (l_merge_byte_avx2 w) a b.
Proof. intros w a b A B. lanes 32%nat a. lanes 32%nat b. vred. Qed.

Lemma k_merge_word_sse2 : forall w a b, length a = 8%nat -> length b = 8%nat ->
  merge_word_simd 1 w a b = map2 (l_merge_word w) a b.
Proof. intros w a b A B. lanes 8%nat a. lanes 8%nat b. vred. Qed.

Lemma k_merge_word_avx2 : forall w a b, length a = 16%nat -> length b = 16%nat ->
  merge_word_simd 2 w a b = map2 (l_merge_word w) a b.
Proof. intros w a b A B. lanes 16%nat a. lanes 16%nat b. vred. Qed.

Lemma k_mm_byte_sse2 : forall a b c, length a = 16%nat -> length b = 16%nat -> length c = 16%nat ->
  mask_merge_byte_sse2 a b c = map3 (fun x y m => l_mm_byte (join8 x 0) (join8 y 0) (join8 m 0)) a b c.
Proof. intros a b c A B C. lanes 16%nat a. lanes 16%nat b. lanes 16%nat c. vred. Qed.

Lemma k_mm_byte_avx2 : forall a b c, length a = 32%nat -> length b = 32%nat -> length c = 32%nat ->
  mask_merge_byte_avx2 a b c = map3 l_mm_byte a b c.
Proof. intros a b c A B C. lanes 32%nat a. lanes 32%nat b. lanes 32%nat c. vred. Qed.

Lemma k_mm_byte_avx512 : forall a b c, length a = 64%nat -> length b = 64%nat -> length c = 64%nat ->
  mask_merge_byte_avx512 a b c = map3 l_mm_byte a b c.
Proof. intros a b c A B C. lanes 64%nat a. lanes 64%nat b. lanes 64%nat c. vred. Qed.

Lemma k_mm_word_sse2 : forall d a b c, length a = 8%nat -> length b = 8%nat -> length c = 8%nat ->
  mask_merge_word_sse2 d a b c = map3 (l_mm_word_sse2 d) a b c.
Proof. intros d a b c A B C. lanes 8%nat a. lanes 8%nat b. lanes 8%nat c. vred. Qed.

Lemma k_mm_word_avx2 : forall d a b c, length a = 16%nat -> length b = 16%nat -> length c = 16%nat ->
  mask_merge_word_avx 2 d a b c = map3 (l_mm_word_avx d) a b c.
Proof. intros d a b c A B C. lanes 16%nat a. lanes 16%nat b. lanes 16%nat c. vred. Qed.

Lemma k_mm_word_avx512 : forall d a b c, length a = 32%nat -> length b = 32%nat -> length c = 32%nat ->
  mask_merge_word_avx 4 d a b c = map3 (l_mm_word_avx d) a b c.
Proof. intros d a b c A B C. lanes 32%nat a. lanes 32%nat b. lanes 32%nat c. vred. Qed.

Lemma k_pm_byte_sse2 : forall o a b c, length a = 16%nat -> length b = 16%nat -> length c = 16%nat ->
  mask_merge_premul_byte_sse2 o a b c
  = map3 (fun x y m => l_pm_byte (fun t => cmplt16 t 0) (negIf selOr16 sub16) o
                         (join8 x 0) (join8 y 0) (join8 m 0)) a b c.
Proof. intros o a b c A B C. lanes 16%nat a. lanes 16%nat b. lanes 16%nat c. vred. Qed.

Lemma k_pm_byte_avx2 : forall o a b c, length a = 32%nat -> length b = 32%nat -> length c = 32%nat ->
  mask_merge_premul_byte_avx2 o a b c
  = map3 (l_pm_byte (fun t => cmpgt16 0 t) (negIf selBlend16 sub16) o) a b c.
Proof. intros o a b c A B C. lanes 32%nat a. lanes 32%nat b. lanes 32%nat c. vred. Qed.

Lemma k_pm_byte_avx512 : forall o a b c, length a = 64%nat -> length b = 64%nat -> length c = 64%nat ->
  mask_merge_premul_byte_avx512 o a b c
  = map3 (l_pm_byte (fun t => cmpgt16 0 t) (negIf selMask sub16) o) a b c.
Proof. intros o a b c A B C. lanes 64%nat a. lanes 64%nat b. lanes 64%nat c. vred. Qed.

Lemma k_pm_word_sse2 : forall d o a b c, length a = 8%nat -> length b = 8%nat -> length c = 8%nat ->
  mask_merge_premul_word_sse2 d o a b c = map3 (l_pm_word_sse2 d o) a b c.
Proof. intros d o a b c A B C. lanes 8%nat a. lanes 8%nat b. lanes 8%nat c. vred. Qed.

Lemma k_pm_word_avx2 : forall d o a b c, length a = 16%nat -> length b = 16%nat -> length c = 16%nat ->
  mask_merge_premul_word_avx2 d o a b c
  = map3 (l_pm_word_avx (negIf selBlend16 sub16) (negIf selBlend32 sub32) d o) a b c.
Proof. intros d o a b c A B C. lanes 16%nat a. lanes 16%nat b. lanes 16%nat c. vred. Qed.

Lemma k_pm_word_avx512 : forall d o a b c, length a = 32%nat -> length b = 32%nat -> length c = 32%nat ->
  mask_merge_premul_word_avx512 d o a b c = map3 (l_pm_word_avx negXor16 negXor32 d o) a b c.
Proof. intros d o a b c A B C. lanes 32%nat a. lanes 32%nat b. lanes 32%nat c. vred. Qed.

(* the difference kernels have no shuffles: any width *)
Lemma map2_set1_r : forall f n x a, length a = n -> map2 f a (set1 n x) = map (fun v => f v x) a.
Proof.
  intros f n x a; revert n; induction a; intros n H; cbn [length] in H; subst n; [reflexivity|].
  cbn [set1 repeat map2 map]. f_equal. apply IHa. reflexivity.
Qed.
Lemma map2_maps : forall f g h a b, map2 f (map g a) (map h b) = map2 (fun x y => f (g x) (h y)) a b.
Proof. induction a; destruct b; cbn [map map2]; [reflexivity..|]. f_equal. apply IHa. Qed.
Lemma map_map2 : forall f g a b, map f (map2 g a b) = map2 (fun x y => f (g x y)) a b.
Proof. induction a; destruct b; cbn [map map2]; [reflexivity..|]. f_equal. apply IHa. Qed.

Ltac widths n := repeat (first [rewrite map2_set1_r
    by (unfold set1; rewrite ?map2_length, ?map_length, ?map2_length, ?map_length, ?repeat_length; lia)
  | rewrite map2_maps | rewrite map_map2]).

Lemma k_makediff_byte : forall n a b, length a = n -> length b = n ->
  makediff_byte_simd n a b = map2 l_makediff_byte a b.
Proof. intros n a b A B. unfold makediff_byte_simd. cbv zeta. widths n. reflexivity. Qed.
Lemma k_mergediff_byte : forall n a b, length a = n -> length b = n ->
  mergediff_byte_simd n a b = map2 l_mergediff_byte a b.
Proof. intros n a b A B. unfold mergediff_byte_simd. cbv zeta. widths n. reflexivity. Qed.
Lemma k_makediff_word : forall n d a b, length a = n -> length b = n ->
  makediff_word_simd n d a b = map2 (l_diff_word subs16 d) a b.
Proof. intros n d a b A B. unfold makediff_word_simd. cbv zeta. widths n. reflexivity. Qed.
Lemma k_mergediff_word : forall n d a b, length a = n -> length b = n ->
  mergediff_word_simd n d a b = map2 (l_diff_word adds16 d) a b.
Proof. intros n d a b A B. unfold mergediff_word_simd. cbv zeta. widths n. reflexivity. Qed.
