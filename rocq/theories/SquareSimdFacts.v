(** The square convolution kernels against the scalar ones. *)
From Coq Require Import ZArith List Lia Bool.
From Coq Require Import SpecFloat.
From Verif Require Import Common FormatSpec Format Frame FrameFacts ImageSpec PlaneMem Spatial SpatialLemmas PixelSpec Pixel PixelLemmas Lut LutLemmas LutFrames LutFacts Soft SoftNum SoftLe GenericSpec Generic GenericLemmas
  GenericMedian GenericOps GenericPlanes GenericFloat GenericFrames Simd MergeSimdLemmas
  GenericSimd GenericSimdLanes GenericSimdFloat GenericSimdOps GenericSimdPlanes SquareSimd SquareSimdFloat SquareSimdLanes SquareSimdPlanes.
Import Soft ListNotations.
Open Scope Z_scope.

(** ** Sums that both kernels finish alike *)

(** No bias, or a product without rounding. *)
Definition unfused (g : gparams) (v : Z) : Prop := (exists s, g_bias g = S754_zero s) \/ exactMul (of32 v 0) (g_div g).
(** The result and, for words of at most 7x7 taps, the sum itself fit int32_t. *)
Definition tame (k n : Z) (g : gparams) (v : Z) : Prop := unfused g v /\ calm (convF g v) /\ (k = 1 \/ 7 < n \/ Z.abs v < 2 ^ 31).

Lemma scaled_lrint : forall g v, unfused g v -> lrint (scaled g (of32 v 0)) = lrint (convF g v).
Proof.
  intros g v [(s & B)|X]; unfold scaled, convF; cbv zeta.
  - destruct (fma_zero (of32 v 0) (g_div g) (g_bias g) s B) as (P & Q). destruct (g_sat g); assumption.
  - rewrite (fma_exact _ _ _ X). reflexivity.
Qed.

Lemma vfinish_tame : forall k n g F v, smallk k -> 0 <= g_maxval g < 256 ^ k -> (k = 1 -> g_maxval g = 255) -> finishes k g F -> Z.abs v < 2 ^ 40 -> tame k n g v ->
  vfinish k n g v = Z.min (F v) (g_maxval g).
Proof.
  intros k n g F v K MV M1 FN V (U & (C & u & E & R) & N7).
  assert (FV : F v = Z.min (256 ^ k - 1) (Z.max 0 u)).
  { destruct (FN v V) as (FE & _). unfold finish in FE. cbv zeta in FE. change (xrint k (convF g v) = Ok (F v)) in FE. rewrite (xrint_sat k _ u K C E) in FE. congruence. }
  pose proof (scaled_lrint g v U) as SL. rewrite E in SL. unfold vfinish. rewrite FV.
  destruct K as [->| ->]; cbn [Z.eqb Pos.eqb].
  - rewrite (finishByte _ u SL) by lia. rewrite (M1 eq_refl). change (256 ^ 1 - 1) with 255. lia.
  - replace (if n <=? 7 then s32 (wrapu32 v) else v) with v.
    + rewrite (cvtI_ok _ u SL) by lia. unfold satu16of32. rewrite s32_wrap32 by lia. rewrite clampZ_minmax by lia. change (256 ^ 2 - 1) with 65535. change (256 ^ 2) with 65536 in MV.
      unfold minu. destruct (Z.ltb_spec (Z.min 65535 (Z.max 0 u)) (g_maxval g)); lia.
    + destruct (Z.leb_spec n 7); [|reflexivity]. symmetry. apply s32_wrap32. lia.
Qed.

(** ** What a created filter guarantees *)

Definition sideOf (g : gparams) : Z := Z.sqrt (g_size g).

Record ready (k n : Z) (g : gparams) : Prop := {
  rd_k : smallk k; rd_n : n = 5 \/ n = 7 \/ n = 9 \/ n = 11; rd_len : zlength (g_matrix g) = n * n; rd_legal : legalMatrix (g_matrix g);
  rd_max : 0 <= g_maxval g < 256 ^ k; rd_max1 : k = 1 -> g_maxval g = 255; rd_fin : exists F, finishes k g F }.

Lemma create_ready : forall vi a d, fmt_valid (vi_fmt vi) -> genericCreate (OpConv CSquare) vi a = Ok d -> divisorOk (ga_divisor a) -> zlength (ga_matrix a) <> 9 ->
  ready (f_bytes (vi_fmt vi)) (sideOf (gd_params d)) (gd_params d) /\ g_maxval (gd_params d) = 2 ^ f_bits (vi_fmt vi) - 1.
Proof.
  intros vi a d V CR DV N9. pose proof (create_inv _ vi a d V CR) as C. destruct (bytes_of _ V) as (B1 & B2 & B3 & B4). destruct C as [C1 C2 C3 C4 C5 C6 C7 C8 C9 C10 C11 C12].
  set (p := gd_params d) in *. set (k := f_bytes (vi_fmt vi)) in *. specialize (B3 C4). split; [|exact C6].
  destruct (C11 _ eq_refl) as (MO & CO & RD & BF & BS & _). destruct (coefsOf_spec _ _ CO) as (LM & LL & _).
  assert (K : smallk k) by (unfold smallk; lia). pose proof (smallk_pow k K) as PK.
  assert (S : sideOf p = 5 /\ g_size p = 25 \/ sideOf p = 7 /\ g_size p = 49 \/ sideOf p = 9 /\ g_size p = 81 \/ sideOf p = 11 /\ g_size p = 121).
  { unfold sideOf. assert (GS : g_size p = zlength (ga_matrix a)) by (unfold g_size; congruence). rewrite GS. unfold matrixOk in MO. rewrite !orb_true_iff, !Z.eqb_eq in MO.
    destruct MO as [[[[Q|Q]|Q]|Q]|Q]; [contradiction | rewrite Q ..]; vm_compute; tauto. }
  constructor.
  - exact K.
  - lia.
  - change (g_size p = sideOf p * sideOf p). destruct S as [(-> & ->)|[(-> & ->)|[(-> & ->)|(-> & ->)]]]; reflexivity.
  - exact LM.
  - rewrite C6. assert (2 ^ 8 <= 2 ^ f_bits (vi_fmt vi)) by (apply Z.pow_le_mono_r; lia).
    assert (2 ^ f_bits (vi_fmt vi) <= 2 ^ (8 * k)) by (apply Z.pow_le_mono_r; lia). rewrite Z.pow_mul_r in * by (unfold smallk in K; lia). change (2 ^ 8) with 256 in *. lia.
  - intros Q. rewrite C6. rewrite Q in *. replace (f_bits (vi_fmt vi)) with 8 by lia. reflexivity.
  - apply finish_total; [exact K|]. split; [apply (rdivOf_fin _ _ _ LM DV RD) | split; assumption].
Qed.

Lemma kernel_scalar : forall k n g t0 src w h dst, ready k n g -> kernelOf (OpConv CSquare) k g t0 src w h dst = convSquare k n g src w h dst.
Proof.
  intros k n g t0 src w h dst [_ N L _ _ _ _]. cbn [kernelOf]. unfold g_size. rewrite L. destruct N as [->|[->|[->| ->]]]; reflexivity.
Qed.

(** The end of the vector columns. *)
Definition vectorEnd (l : level) (vnni : bool) (k n : Z) (g : gparams) (w : Z) : Z :=
  match l with
  | LAvx2 => interiorEnd w 16 (n / 2)
  | LAvx512 => if (k =? 1) && vnni && convInt8 (g_matrix g) then endVnni n w else interiorEnd w 32 (n / 2)
  end.

Lemma kernel_vector : forall l vnni k n g F src w h dst, ready k n g -> finishes k g F -> 1 <= w < 2 ^ 30 -> 1 <= h < 2 ^ 30 -> wfPlane k src w h -> wfPlane k dst w h -> byteBuf src ->
  exists m, squareKernel l vnni k g src w h dst = Ok m /\ b_size m = b_size (p_buf dst) /\
    same (imageOf k (mkPl (p_stride dst) m) w h) (mixed k n g F src w h (vectorEnd l vnni k n g w)).
Proof.
  intros l vnni k n g F src w h dst [K N L LM MV M1 _] FN W H WS WD BB.
  assert (GO : squareKernel l vnni k g src w h dst =
    if match l with LAvx512 => (k =? 1) && vnni && convInt8 (g_matrix g) | LAvx2 => false end then squareVnni n g src w h dst
    else squareV (match l with LAvx2 => 2%nat | LAvx512 => 4%nat end) k n g src w h dst).
  { unfold squareKernel, g_size. rewrite L. destruct N as [->|[->|[->| ->]]]; reflexivity. }
  rewrite GO. unfold vectorEnd. destruct l.
  - apply (squareV_spec k n g F src w h dst K N L LM MV FN W H WS WD BB 2). left. reflexivity.
  - destruct ((k =? 1) && vnni && convInt8 (g_matrix g)) eqn:Q.
    + apply andb_true_iff in Q. destruct Q as (Q & SM). apply andb_true_iff in Q. destruct Q as (Q & _). apply Z.eqb_eq in Q. subst k.
      apply squareVnni_spec; assumption.
    + apply (squareV_spec k n g F src w h dst K N L LM MV FN W H WS WD BB 4). right. reflexivity.
Qed.

Lemma square_bound : forall k n g src w h M x y, ready k n g -> 0 <= M -> 1 <= w -> 1 <= h -> (forall u v, 0 <= u < w -> 0 <= v < h -> 0 <= i_at (imageOf k src w h) u v <= M) ->
  Z.abs (square n (g_matrix g) (imageOf k src w h) x y) <= n * n * (1023 * M).
Proof.
  intros k n g src w h M x y [_ N _ LM _ _ _] M0 W H R. set (a := imageOf k src w h) in *. unfold square. change (i_w a) with w. change (i_h a) with h.
  assert (LS : forall (f : Z -> Z) B l, 0 <= B -> (forall c, Z.abs (f c) <= B) -> Z.abs (sumL (map f l)) <= zlength l * B).
  { intros f B l B0 FB. induction l as [|c l IH]; [unfold zlength, sumL; cbn [map fold_right length]; lia|]. unfold sumL in *. cbn [map fold_right]. rewrite zlength_cons. specialize (FB c). lia. }
  assert (NP : 0 <= n) by lia.
  etransitivity; [apply (LS _ (n * (1023 * M))); [nia|]|].
  - intros r. etransitivity; [apply (LS _ (1023 * M)); [lia|]|].
    + intros c. rewrite Z.abs_mul. pose proof (coef_legal (g_matrix g) (r * n + c) LM). pose proof (R (mirrored w (x + c - n / 2)) (mirrored h (y + r - n / 2)) ltac:(apply mirrored_in; lia) ltac:(apply mirrored_in; lia)).
      apply Z.mul_le_mono_nonneg; lia.
    + rewrite zlength_zseq. replace (Z.max 0 n) with n by lia. lia.
  - rewrite zlength_zseq. replace (Z.max 0 n) with n by lia. lia.
Qed.

(** ** Equal pictures *)

Lemma kernels_tame : forall l vnni vi a d t0 src w h dst, fmt_valid (vi_fmt vi) -> genericCreate (OpConv CSquare) vi a = Ok d -> divisorOk (ga_divisor a) -> zlength (ga_matrix a) <> 9 ->
  let k := f_bytes (vi_fmt vi) in let p := gd_params d in let n := sideOf p in
  1 <= w < 2 ^ 30 -> 1 <= h < 2 ^ 30 -> wfPlane k src w h -> wfPlane k dst w h -> byteBuf src ->
  (forall x y, 0 <= x < w -> 0 <= y < h -> tame k n p (square n (g_matrix p) (imageOf k src w h) x y)) ->
  exists mv ms, squareKernel l vnni k p src w h dst = Ok mv /\ kernelOf (OpConv CSquare) k p t0 src w h dst = Ok ms /\ b_size mv = b_size (p_buf dst) /\ b_size ms = b_size (p_buf dst) /\
    same (imageOf k (mkPl (p_stride dst) mv) w h) (imageOf k (mkPl (p_stride dst) ms) w h).
Proof.
  intros l vnni vi a d t0 src w h dst V CR DV N9 k p n W H WS WD BB TM.
  destruct (create_ready vi a d V CR DV N9) as (RD & _). fold k p n in RD. destruct RD as [K N L LM MV M1 (F & FN)].
  assert (RD : ready k n p) by (constructor; eauto).
  destruct (kernel_vector l vnni k n p F src w h dst RD FN W H WS WD BB) as (mv & EV & SV & (I1 & I2 & IV)).
  destruct (convSquare_spec k n p F src w h dst K N L LM MV FN W H WS WD BB) as (ms & ES & SS & (J1 & J2 & IS)).
  exists mv, ms. split; [exact EV|]. split; [rewrite (kernel_scalar k n) by exact RD; exact ES|]. split; [exact SV|]. split; [exact SS|].
  split; [reflexivity|]. split; [reflexivity|]. intros x y X Y. cbn [imageOf i_w i_h] in X, Y. rewrite IV, IS by (cbn [imageOf i_w i_h]; assumption).
  cbn [mixed weighed i_at]. cbv zeta. destruct (_ && _); [|reflexivity]. apply vfinish_tame; auto.
  assert (IR : forall u v, 0 <= u < w -> 0 <= v < h -> 0 <= i_at (imageOf k src w h) u v <= 65535).
  { intros u v _ _. pose proof (image_range k src w h u v ltac:(unfold smallk in K; lia) BB). pose proof (smallk_pow k K). lia. }
  pose proof (square_bound k n p src w h 65535 x y RD ltac:(lia) ltac:(lia) ltac:(lia) IR) as SB.
  assert (n * n * (1023 * 65535) <= 121 * (1023 * 65535)) by (destruct N as [Q|[Q|[Q|Q]]]; rewrite Q; lia). lia.
Qed.

(** Without a bias, with a divisor of at least one and samples small enough for the size of the
    matrix, nothing leaves the range. *)
Lemma tame_small : forall k n g v, (exists s, g_bias g = S754_zero s) -> canon (g_div g) -> magLe (2 ^ 23) (-23) (g_div g) -> Z.abs v <= 1676083200 -> tame k n g v.
Proof.
  intros k n g v B CD LD V. split; [left; exact B|]. split; [|right; right; lia].
  assert (O : canon (of32 v 0) /\ magLe 13094400 7 (of32 v 0)).
  { unfold of32. apply normalize_le; [lia | lia | lia |]. change (13094400 * 2 ^ (7 - 0)) with 1676083200. exact V. }
  destruct O as (C1 & L1). destruct (mul_le _ _ _ _ _ _ 13094400 7 C1 CD L1 LD) as (C2 & L2); try lia.
  destruct B as (s & B). unfold convF. cbv zeta. rewrite B.
  assert (A : canon (add32 (mul32 (of32 v 0) (g_div g)) (S754_zero s)) /\ magLe 13094400 7 (add32 (mul32 (of32 v 0) (g_div g)) (S754_zero s))).
  { destruct (add_le _ (S754_zero s) 13094400 0 7 13094400 7 C2 I L2 I) as (C3 & L3); try lia. split; assumption. }
  destruct A as (C3 & L3). destruct (g_sat g).
  - apply (calm_le 13094400 7); try assumption; lia.
  - apply (calm_le 13094400 7); try lia; [apply abs_canon; exact C3 | apply abs_magLe; exact L3].
Qed.

Lemma kernels_small : forall l vnni vi a d t0 src w h dst M, fmt_valid (vi_fmt vi) -> genericCreate (OpConv CSquare) vi a = Ok d -> divisorOk (ga_divisor a) -> zlength (ga_matrix a) <> 9 ->
  ga_bias a = None -> let k := f_bytes (vi_fmt vi) in let p := gd_params d in let n := sideOf p in
  canon (g_div p) -> magLe (2 ^ 23) (-23) (g_div p) -> n * n * (1023 * M) <= 1676083200 ->
  1 <= w < 2 ^ 30 -> 1 <= h < 2 ^ 30 -> wfPlane k src w h -> wfPlane k dst w h -> byteBuf src -> within k M src w h ->
  exists mv ms, squareKernel l vnni k p src w h dst = Ok mv /\ kernelOf (OpConv CSquare) k p t0 src w h dst = Ok ms /\ b_size mv = b_size (p_buf dst) /\ b_size ms = b_size (p_buf dst) /\
    same (imageOf k (mkPl (p_stride dst) mv) w h) (imageOf k (mkPl (p_stride dst) ms) w h).
Proof.
  intros l vnni vi a d t0 src w h dst M V CR DV N9 NB k p n CD LD NM W H WS WD BB WI. apply (kernels_tame l vnni vi a d); auto.
  intros x y X Y. fold k p n. destruct (create_ready vi a d V CR DV N9) as (RD & _). fold k p n in RD.
  pose proof (create_inv _ vi a d V CR) as C. destruct (cr_conv _ _ _ _ C _ eq_refl) as (_ & _ & _ & _ & _ & BE). rewrite NB in BE. fold p in BE.
  apply tame_small; [exists false; exact BE | exact CD | exact LD |].
  assert (M0 : 0 <= M) by (specialize (WI 0 0 ltac:(lia) ltac:(lia)); lia).
  pose proof (square_bound k n p src w h M x y RD M0 ltac:(lia) ltac:(lia) WI). lia.
Qed.

(** With a bias, when the divisor is a power of two and the sums have at most 24 bits. *)
Lemma tame_pow2 : forall k n g v j, -60 <= j <= 60 -> g_div g = of32 1 j \/ g_div g = SFopp (of32 1 j) -> canon (g_div g) -> magLe (2 ^ 23) (-23) (g_div g) ->
  canon (g_bias g) -> magLe (2 ^ 23) 6 (g_bias g) -> Z.abs v < 2 ^ 24 -> tame k n g v.
Proof.
  intros k n g v j J DE CD LD CB LB V. split; [right; apply (exactMul_pow2 v _ j); assumption|]. split; [|right; right; lia].
  assert (O : canon (of32 v 0) /\ magLe (2 ^ 23) 7 (of32 v 0)).
  { unfold of32. apply normalize_le; [lia | lia | lia |]. change (2 ^ 23 * 2 ^ (7 - 0)) with 1073741824. lia. }
  destruct O as (C1 & L1). destruct (mul_le _ _ _ _ _ _ (2 ^ 23) 7 C1 CD L1 LD) as (C2 & L2); try lia.
  assert (LB' : magLe (2 ^ 22) 7 (g_bias g)) by (apply (magLe_mono (2 ^ 23) 6); [exact LB | lia | lia | vm_compute; discriminate]).
  destruct (add_le _ _ _ _ _ (2 ^ 23 + 2 ^ 22) 7 C2 CB L2 LB') as (C3 & L3); try lia.
  unfold convF. cbv zeta. destruct (g_sat g).
  - apply (calm_le (2 ^ 23 + 2 ^ 22) 7); try assumption; lia.
  - apply (calm_le (2 ^ 23 + 2 ^ 22) 7); try lia; [apply abs_canon; exact C3 | apply abs_magLe; exact L3].
Qed.

Lemma kernels_pow2 : forall l vnni vi a d t0 src w h dst M j, fmt_valid (vi_fmt vi) -> genericCreate (OpConv CSquare) vi a = Ok d -> divisorOk (ga_divisor a) -> zlength (ga_matrix a) <> 9 ->
  let k := f_bytes (vi_fmt vi) in let p := gd_params d in let n := sideOf p in
  -60 <= j <= 60 -> g_div p = of32 1 j \/ g_div p = SFopp (of32 1 j) -> canon (g_div p) -> magLe (2 ^ 23) (-23) (g_div p) -> canon (g_bias p) -> magLe (2 ^ 23) 6 (g_bias p) ->
  n * n * (1023 * M) < 2 ^ 24 ->
  1 <= w < 2 ^ 30 -> 1 <= h < 2 ^ 30 -> wfPlane k src w h -> wfPlane k dst w h -> byteBuf src -> within k M src w h ->
  exists mv ms, squareKernel l vnni k p src w h dst = Ok mv /\ kernelOf (OpConv CSquare) k p t0 src w h dst = Ok ms /\ b_size mv = b_size (p_buf dst) /\ b_size ms = b_size (p_buf dst) /\
    same (imageOf k (mkPl (p_stride dst) mv) w h) (imageOf k (mkPl (p_stride dst) ms) w h).
Proof.
  intros l vnni vi a d t0 src w h dst M j V CR DV N9 k p n J DE CD LD CB LB NM W H WS WD BB WI. apply (kernels_tame l vnni vi a d); auto.
  intros x y X Y. fold k p n. destruct (create_ready vi a d V CR DV N9) as (RD & _). fold k p n in RD.
  apply (tame_pow2 k n p _ j); auto.
  assert (M0 : 0 <= M) by (specialize (WI 0 0 ltac:(lia) ltac:(lia)); lia).
  pose proof (square_bound k n p src w h M x y RD M0 ltac:(lia) ltac:(lia) WI). lia.
Qed.

(** ** Where they differ *)

(** Pictures of one value. *)
Definition flat (k w h b : Z) : plane := mkPl (w * k) (mkB (w * k * h) (fun _ => b)).

Lemma square_flat : forall n m a v x y, (forall u t, i_at a u t = v) -> square n m a x y = v * sumL (map (fun r => sumL (map (fun c => GenericSpec.coef m (r * n + c)) (zseq n))) (zseq n)).
Proof.
  intros n m a v x y E. unfold square. set (f := fun r => sumL _).
  assert (G : forall r, f r = v * sumL (map (fun c => GenericSpec.coef m (r * n + c)) (zseq n))).
  { intros r. unfold f. generalize (zseq n). induction l as [|c l IH]; [unfold sumL; cbn [map fold_right]; ring|]. unfold sumL in *. cbn [map fold_right]. rewrite IH, E. ring. }
  clearbody f. generalize (zseq n) at 1 3. induction l as [|c l IH]; [unfold sumL; cbn [map fold_right]; ring|]. unfold sumL in *. cbn [map fold_right]. rewrite IH, G. unfold sumL. ring.
Qed.

(** A clip of 48x12 in format [f], one value everywhere: the vector kernel gives [v] in the middle
    and [s] at the left border, the scalar kernel [s] everywhere. *)
Definition seam (l : level) (f : vfmt) (b : Z) (a : gargs) (v s : Z) : Prop :=
  exists d, genericCreate (OpConv CSquare) (mkVI f 48 12 1) a = Ok d /\
    let k := f_bytes f in let p := gd_params d in let src := flat k 48 12 b in
    forall vnni t0, exists mv ms, squareKernel l vnni k p src 48 12 src = Ok mv /\ kernelOf (OpConv CSquare) k p t0 src 48 12 src = Ok ms /\
      i_at (imageOf k (mkPl (p_stride src) mv) 48 12) 20 6 = v /\ i_at (imageOf k (mkPl (p_stride src) mv) 48 12) 0 6 = s /\
      forall x y, 0 <= x < 48 -> 0 <= y < 12 -> i_at (imageOf k (mkPl (p_stride src) ms) 48 12) x y = s.

Lemma seam_of : forall l f b a d n v s q, fmt_valid f -> 0 <= b < 256 -> genericCreate (OpConv CSquare) (mkVI f 48 12 1) a = Ok d -> divisorOk (ga_divisor a) -> zlength (ga_matrix a) <> 9 ->
  let k := f_bytes f in let p := gd_params d in n = sideOf p ->
  (k = 1 -> convInt8 (g_matrix p) = false) ->
  (if k =? 1 then b else b + 256 * b) * sumL (map (fun r => sumL (map (fun c => GenericSpec.coef (g_matrix p) (r * n + c)) (zseq n))) (zseq n)) = q -> Z.abs q < 2 ^ 40 ->
  vfinish k n p q = v -> obind (finish k p q) (fun u => Ok (Z.min u (g_maxval p))) = Ok s -> seam l f b a v s.
Proof.
  intros l f b a d n v s q FV B CR DV N9 k p NE NV Q Q40 VE SE.
  destruct (create_ready (mkVI f 48 12 1) a d FV CR DV N9) as (RD & _). cbn [vi_fmt] in RD. fold k p in RD. rewrite <- NE in RD.
  exists d. split; [exact CR|]. cbv zeta. fold k p. intros vnni t0. set (src := flat k 48 12 b).
  pose proof RD as [K N L LM MV M1 (F & FN)].
  assert (WS : wfPlane k src 48 12) by (unfold wfPlane, src, flat; cbn [p_stride p_buf b_size]; lia).
  assert (BB : byteBuf src) by (intros x; exact B).
  assert (FL : forall u t, i_at (imageOf k src 48 12) u t = if k =? 1 then b else b + 256 * b).
  { intros u t. unfold src, flat. cbn [imageOf i_at p_buf b_data p_stride]. generalize (t * (48 * k) + u * k). intros o.
    destruct K as [E|E]; rewrite E; [change (Z.to_nat 1) with 1%nat | change (Z.to_nat 2) with 2%nat]; cbn [Z.eqb Pos.eqb leval]; lia. }
  assert (SQ : forall x y, square n (g_matrix p) (imageOf k src 48 12) x y = q) by (intros x y; rewrite (square_flat _ _ _ _ _ _ FL); exact Q).
  assert (FQ : Z.min (F q) (g_maxval p) = s) by (destruct (FN q Q40) as (E & _); rewrite E in SE; cbn [obind] in SE; congruence).
  destruct (kernel_vector l vnni k n p F src 48 12 src RD FN ltac:(lia) ltac:(lia) WS WS BB) as (mv & EV & _ & (_ & _ & IV)).
  destruct (convSquare_spec k n p F src 48 12 src K N L LM MV FN ltac:(lia) ltac:(lia) WS WS BB) as (ms & ES & _ & (_ & _ & IS)).
  exists mv, ms. split; [exact EV|]. split; [rewrite (kernel_scalar k n) by exact RD; exact ES|].
  assert (VE' : vectorEnd l vnni k n p 48 = 48 - n / 2).
  { unfold vectorEnd. replace ((k =? 1) && vnni && convInt8 (g_matrix p)) with false.
    - unfold interiorEnd. destruct l; destruct N as [->|[->|[->| ->]]]; reflexivity.
    - destruct (Z.eqb_spec k 1) as [E|]; [|reflexivity]. rewrite (NV E). rewrite andb_false_r. reflexivity. }
  assert (N2 : 2 <= n / 2 <= 5) by (destruct N as [->|[->|[->| ->]]]; vm_compute; split; discriminate).
  split; [|split].
  - rewrite IV by (cbn [imageOf i_w i_h]; lia). cbn [mixed i_at]. cbv zeta. rewrite SQ, VE'. replace ((n / 2 <=? 20) && (20 <? 48 - n / 2)) with true; [exact VE|].
    symmetry. apply andb_true_iff. split; [apply Z.leb_le | apply Z.ltb_lt]; lia.
  - rewrite IV by (cbn [imageOf i_w i_h]; lia). cbn [mixed i_at]. cbv zeta. rewrite SQ. replace (n / 2 <=? 0) with false by (symmetry; apply Z.leb_gt; lia). exact FQ.
  - intros x y X Y. rewrite IS by (cbn [imageOf i_w i_h]; assumption). cbn [weighed i_at]. rewrite SQ. exact FQ.
Qed.

Definition conv (m : list Z) (bias divisor : option fl) : gargs := mkGA [] None None None (map num m) None bias divisor None.

(** 7x7 taps of 16 bit samples, all coefficients equal, the default divisor: white turns black. *)
Definition box7 : gargs := conv (repeat 1023 49) None None.
Lemma box7_differs : forall l, seam l gray16 255 box7 0 65535.
Proof.
  intros l. destruct (genericCreate (OpConv CSquare) (mkVI gray16 48 12 1) box7) as [d| |] eqn:CR; try (vm_compute in CR; discriminate CR).
  vm_compute in CR. injection CR as CR.
  eapply (seam_of l gray16 255 box7 d 7 0 65535 (65535 * (49 * 1023))); rewrite <- ?CR.
  - exact gray16_valid.
  - lia.
  - vm_compute. reflexivity.
  - exact I.
  - vm_compute. discriminate.
  - vm_compute. reflexivity.
  - intros Q. discriminate Q.
  - vm_compute. reflexivity.
  - reflexivity.
  - vm_compute. reflexivity.
  - vm_compute. reflexivity.
Qed.

(** 9x9 taps with the divisor one: the sum does not fit the conversion to int32_t. *)
Definition sum9 : gargs := conv (repeat 1023 81) None (Some (num 1)).
Lemma sum9_differs : forall l, seam l gray16 255 sum9 0 65535.
Proof.
  intros l. destruct (genericCreate (OpConv CSquare) (mkVI gray16 48 12 1) sum9) as [d| |] eqn:CR; try (vm_compute in CR; discriminate CR).
  vm_compute in CR. injection CR as CR.
  eapply (seam_of l gray16 255 sum9 d 9 0 65535 (65535 * (81 * 1023))); rewrite <- ?CR.
  - exact gray16_valid.
  - lia.
  - vm_compute. reflexivity.
  - vm_compute. repeat split; try discriminate; reflexivity.
  - vm_compute. discriminate.
  - vm_compute. reflexivity.
  - intros Q. discriminate Q.
  - vm_compute. reflexivity.
  - reflexivity.
  - vm_compute. reflexivity.
  - vm_compute. reflexivity.
Qed.

(** 8 bit samples of value 3, weight 257, divisor 6, bias -128: 771/6 - 128 is exactly one half;
    the scalar kernel rounds the product to 128.5 and then one half to zero, the fused one sees
    that the reciprocal was rounded up. *)
Definition half5 : gargs := conv (repeat 0 12 ++ [257] ++ repeat 0 12) (Some (num (-128))) (Some (num 6)).
Lemma half5_differs : forall l, seam l gray8 3 half5 1 0.
Proof.
  intros l. destruct (genericCreate (OpConv CSquare) (mkVI gray8 48 12 1) half5) as [d| |] eqn:CR; try (vm_compute in CR; discriminate CR).
  vm_compute in CR. injection CR as CR.
  eapply (seam_of l gray8 3 half5 d 5 1 0 771); rewrite <- ?CR.
  - exact gray8_valid.
  - lia.
  - vm_compute. reflexivity.
  - vm_compute. repeat split; try discriminate; reflexivity.
  - vm_compute. discriminate.
  - vm_compute. reflexivity.
  - intros Q. vm_compute. reflexivity.
  - vm_compute. reflexivity.
  - reflexivity.
  - vm_compute. reflexivity.
  - vm_compute. reflexivity.
Qed.

(** A picture on which they agree. *)
Definition ramp (k w h : Z) : plane := mkPl (w * k) (mkB (w * k * h) (fun a => if k =? 1 then a mod 251 else if Z.even a then a mod 251 else 3)).
Definition pick (k w h : Z) (o : outcome pbuf) (l : list (Z * Z)) : outcome (list Z) :=
  obind o (fun m => Ok (map (fun q => i_at (imageOf k (mkPl (w * k) m) w h) (fst q) (snd q)) l)).
Definition both (l : level) (vnni : bool) (f : vfmt) (a : gargs) (w h : Z) (q : list (Z * Z)) : outcome (list Z * list Z) :=
  obind (genericCreate (OpConv CSquare) (mkVI f w h 1) a) (fun d => let k := f_bytes f in let p := ramp k w h in
  obind (pick k w h (squareKernel l vnni k (gd_params d) p w h p) q) (fun u =>
  obind (pick k w h (kernelOf (OpConv CSquare) k (gd_params d) (fun _ => 0) p w h p) q) (fun v => Ok (u, v)))).
