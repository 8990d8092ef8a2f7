(** The vector kernels of the one-dimensional convolutions against the scalar ones. *)
From Coq Require Import ZArith List Lia Bool.
From Coq Require Import SpecFloat.
From Verif Require Import Common FormatSpec Format Frame FrameFacts ImageSpec PlaneMem Spatial SpatialLemmas PixelSpec Pixel PixelLemmas Lut LutLemmas LutFrames LutFacts Soft SoftNum SoftLe GenericSpec Generic GenericLemmas
  GenericMedian GenericOps GenericPlanes GenericFloat GenericFrames Simd MergeSimdLemmas
  GenericSimd GenericSimdLanes GenericSimdFloat GenericSimdOps GenericSimdPlanes SquareSimd SquareSimdFloat SquareSimdLanes SquareSimdPlanes SquareSimdFacts ConvSimd ConvSimdLanes ConvSimdScan ConvSimdPlanes ConvSimdRoom.
Import Soft ListNotations.
Open Scope Z_scope.

(** ** What a created filter guarantees *)

Record ready1 (k : Z) (g : gparams) : Prop := {
  r1_k : smallk k; r1_legal : legalMatrix (g_matrix g); r1_size : 3 <= g_size g <= 25; r1_odd : Z.odd (g_size g) = true;
  r1_max : 0 <= g_maxval g < 256 ^ k; r1_max1 : k = 1 -> g_maxval g = 255; r1_fin : exists F, finishes k g F }.

Lemma create_ready1 : forall t vi a d, fmt_valid (vi_fmt vi) -> t <> CSquare -> genericCreate (OpConv t) vi a = Ok d -> divisorOk (ga_divisor a) ->
  ready1 (f_bytes (vi_fmt vi)) (gd_params d) /\ g_maxval (gd_params d) = 2 ^ f_bits (vi_fmt vi) - 1.
Proof.
  intros t vi a d V NS CR DV. pose proof (create_inv _ vi a d V CR) as C. destruct (bytes_of _ V) as (B1 & B2 & B3 & B4). destruct C as [C1 C2 C3 C4 C5 C6 C7 C8 C9 C10 C11 C12].
  set (p := gd_params d) in *. set (k := f_bytes (vi_fmt vi)) in *. specialize (B3 C4). split; [|exact C6].
  destruct (C11 _ eq_refl) as (MO & CO & RD & BF & BS & _). destruct (coefsOf_spec _ _ CO) as (LM & LL & _).
  assert (K : smallk k) by (unfold smallk; lia). pose proof (smallk_pow k K) as PK.
  assert (S : 3 <= g_size p <= 25 /\ Z.odd (g_size p) = true).
  { assert (GS : g_size p = zlength (ga_matrix a)) by (unfold g_size; congruence). rewrite GS. unfold matrixOk in MO. destruct t; [contradiction| | |]; rewrite !andb_true_iff, !Z.leb_le in MO; tauto. }
  constructor.
  - exact K.
  - exact LM.
  - tauto.
  - tauto.
  - rewrite C6. assert (2 ^ 8 <= 2 ^ f_bits (vi_fmt vi)) by (apply Z.pow_le_mono_r; lia).
    assert (2 ^ f_bits (vi_fmt vi) <= 2 ^ (8 * k)) by (apply Z.pow_le_mono_r; lia). rewrite Z.pow_mul_r in * by (unfold smallk in K; lia). change (2 ^ 8) with 256 in *. lia.
  - intros Q. rewrite C6. rewrite Q in *. replace (f_bits (vi_fmt vi)) with 8 by lia. reflexivity.
  - apply finish_total; [exact K|]. split; [apply (rdivOf_fin _ _ _ LM DV RD) | split; assumption].
Qed.

(** ** Pictures *)

(** The picture of a convolution of type [t] whose sums are finished by [fin]. *)
Definition convImage (t : convType) (fin : Z -> Z) (m : list Z) (a : image) : image :=
  match t with
  | CHorizontal => weighed fin (horizontal m) a
  | CVertical => weighed fin (vertical m) a
  | CSeparable => weighed fin (horizontal m) (weighed fin (vertical m) a)
  | CSquare => a
  end.

(** Only the separable kernel can run past the end of its row. *)
Definition roomy (B : backend) (t : convType) (g : gparams) (w : Z) : Prop :=
  match t with CSeparable => blocksOf B w * pels B + reach g - 1 - g_size g / 2 <= w + 32 | _ => True end.
Definition goodScratch (sc : scratch) : Prop := (forall z, 0 <= sc_pad sc z < 256) /\ (forall z, 0 <= sc_row sc z < 256).

Lemma dims_ok : forall t n w h, checkPlaneDims (OpConv t) n w h = true ->
  match t with CHorizontal | CSeparable => n / 2 < w | _ => True end /\ match t with CVertical | CSeparable => n / 2 < h | _ => True end.
Proof.
  intros t n w h. unfold checkPlaneDims. destruct ((w <? 4) || (h <? 4)); [discriminate|].
  destruct (Z.leb_spec w (n / 2)); destruct (Z.leb_spec h (n / 2)); destruct t; cbn [andb]; intros; try discriminate; split; try exact I; lia.
Qed.

Theorem kernel_pictures : forall B t k g sc src w h dst, known B -> t <> CSquare -> ready1 k g -> checkPlaneDims (OpConv t) (g_size g) w h = true -> roomy B t g w -> goodScratch sc ->
  1 <= w < 2 ^ 31 -> 1 <= h < 2 ^ 31 -> wfPlane k src w h -> wfPlane k dst w h -> aligned B src -> aligned B dst -> byteBuf src ->
  exists m, convKernel B t k g sc src w h dst = Ok m /\ b_size m = b_size (p_buf dst) /\
    same (imageOf k (mkPl (p_stride dst) m) w h) (convImage t (vfin B k g) (g_matrix g) (imageOf k src w h)).
Proof.
  intros B t k g sc src w h dst KB NS [K LM N3 NO MV _ _] CK RM (SC1 & SC2) W H WS WD AS AD BB. destruct (dims_ok t _ w h CK) as (DW & DH). destruct t; [contradiction| | |]; cbn [convKernel convImage].
  - apply convHV_ok; assumption.
  - apply convVV_ok; assumption.
  - apply convXV_ok; assumption.
Qed.

(** SSE2 and AVX2 always have room; AVX-512 when the last 32 columns are not 1 to 11. *)
Lemma room_narrow : forall B t k g w, B = sse2 \/ B = avx2 \/ B = avx512 /\ (w mod 32 = 0 \/ 12 <= w mod 32) -> ready1 k g -> 1 <= w -> roomy B t g w.
Proof.
  intros B t k g w BE [K LM N3 NO MV _ _] W. unfold roomy. destruct t; try exact I.
  assert (NE : g_size g = 2 * (g_size g / 2) + 1) by (pose proof (odd_half (g_size g) NO); lia). set (s := g_size g / 2) in *.
  assert (RL : reach g - 1 - s <= 12).
  { unfold reach. destruct (Z.eqb_spec (g_size g) 13); cbn [orb]; [lia|]. destruct (Z.eqb_spec (g_size g) 25); cbn [orb]; lia. }
  assert (BL : blocksOf B w * pels B <= w + 20); [|lia].
  unfold blocksOf. destruct BE as [->|[->|(-> & M)]]; [change (pels sse2) with 8 | change (pels avx2) with 16 | change (pels avx512) with 32].
  - pose proof (Z.mul_div_le (w + 8 - 1) 8 ltac:(lia)). lia.
  - pose proof (Z.mul_div_le (w + 16 - 1) 16 ltac:(lia)). lia.
  - Z.to_euclidean_division_equations. lia.
Qed.

(** ** Sums that both kernels finish alike *)

(** SSE2 rounds the product as the scalar code does. *)
Definition quiet (B : backend) (g : gparams) (v : Z) : Prop := (be_biased B = true \/ unfused g v) /\ calm (convF g v).

Lemma vfin_quiet : forall B k g F v, ready1 k g -> finishes k g F -> Z.abs v < 2 ^ 40 -> quiet B g v -> vfin B k g v = Z.min (F v) (g_maxval g).
Proof.
  intros B k g F v [K LM N3 NO MV M1 _] FN V (U & (C & u & E & R)).
  assert (FV : F v = Z.min (256 ^ k - 1) (Z.max 0 u)).
  { destruct (FN v V) as (FE & _). unfold finish in FE. cbv zeta in FE. change (xrint k (convF g v) = Ok (F v)) in FE. rewrite (xrint_sat k _ u K C E) in FE. congruence. }
  assert (SL : lrint (scaledB B g (of32 v 0)) = Ok u).
  { unfold scaledB. destruct (be_biased B) eqn:BI; [rewrite <- E; unfold convF; cbv zeta; reflexivity|]. destruct U as [U|U]; [discriminate|]. rewrite (scaled_lrint g v U). exact E. }
  unfold vfin. cbv zeta. rewrite FV. destruct K as [->| ->]; cbn [Z.eqb Pos.eqb].
  - rewrite (finishByte _ u SL) by lia. rewrite (M1 eq_refl). change (256 ^ 1 - 1) with 255. lia.
  - change (256 ^ 2) with 65536 in *. rewrite (finishWord B _ u (g_maxval g) SL) by lia. lia.
Qed.

(** Sums over pictures of samples. *)
Lemma sum_bound : forall m (f : Z -> Z) M n, legalMatrix m -> 0 <= n <= 25 -> 0 <= M <= 65535 -> (forall c, 0 <= f c <= M) ->
  Z.abs (sumL (map (fun c => GenericSpec.coef m c * f c) (zseq n))) <= n * (1023 * M).
Proof.
  intros m f M n LM N M0 R. apply abs_sum; [lia | lia |]. intros c C. rewrite Z.abs_mul. pose proof (coef_legal m c LM). specialize (R c). apply Z.mul_le_mono_nonneg; lia.
Qed.

(** Every sum the convolution makes is [P]. *)
Definition allSums (t : convType) (fin : Z -> Z) (m : list Z) (a : image) (P : Z -> Prop) : Prop :=
  forall x y, 0 <= x < i_w a -> 0 <= y < i_h a ->
  match t with
  | CHorizontal => P (horizontal m a x y)
  | CVertical => P (vertical m a x y)
  | CSeparable => P (vertical m a x y) /\ P (horizontal m (weighed fin (vertical m) a) x y)
  | CSquare => True
  end.

Lemma horizontal_ext : forall m a b x y, i_w a = i_w b -> 1 <= i_w a -> (forall u, 0 <= u < i_w a -> i_at a u y = i_at b u y) -> horizontal m a x y = horizontal m b x y.
Proof. intros m a b x y E W X. unfold horizontal. f_equal. apply map_ext. intros c. f_equal. rewrite <- E. apply X. apply mirrored_in. lia. Qed.

Lemma convImage_ext : forall t F1 F2 m a, 1 <= i_w a -> 1 <= i_h a -> allSums t F2 m a (fun v => F1 v = F2 v) -> same (convImage t F1 m a) (convImage t F2 m a).
Proof.
  intros t F1 F2 m a W H Q. destruct t; cbn [convImage]; (split; [reflexivity|]; split; [reflexivity|]); intros x y X Y; cbn [weighed i_w i_h i_at] in *.
  - reflexivity.
  - exact (Q x y X Y).
  - exact (Q x y X Y).
  - destruct (Q x y X Y) as (_ & Q2). rewrite <- Q2. f_equal. apply horizontal_ext; [reflexivity | exact W |]. intros u U. cbn [weighed i_at]. apply (Q u y); assumption.
Qed.

Lemma kernel_scalar1 : forall t k g F t0 src w h dst, t <> CSquare -> ready1 k g -> finishes k g F -> checkPlaneDims (OpConv t) (g_size g) w h = true ->
  1 <= w < 2 ^ 31 -> 1 <= h < 2 ^ 31 -> wfPlane k src w h -> wfPlane k dst w h -> byteBuf src ->
  exists m, kernelOf (OpConv t) k g t0 src w h dst = Ok m /\ b_size m = b_size (p_buf dst) /\
    same (imageOf k (mkPl (p_stride dst) m) w h) (convImage t (fun s => Z.min (F s) (g_maxval g)) (g_matrix g) (imageOf k src w h)).
Proof.
  intros t k g F t0 src w h dst NS [K LM N3 NO MV _ _] FN CK W H WS WD BB. destruct (dims_ok t _ w h CK) as (DW & DH).
  assert (L1 : forall n, g_size g / 2 < n -> legal1d g n) by (intros n Hn; repeat split; try assumption; lia).
  destruct t; [contradiction| | |]; cbn [kernelOf convImage].
  - apply convH_spec; auto.
  - apply convV_spec; auto.
  - apply convX_spec; auto.
Qed.

Definition equalPictures (B : backend) (t : convType) (k : Z) (g : gparams) (sc : scratch) (t0 : Z -> Z) (src : plane) (w h : Z) (dst : plane) : Prop :=
  exists mv ms, convKernel B t k g sc src w h dst = Ok mv /\ kernelOf (OpConv t) k g t0 src w h dst = Ok ms /\ b_size mv = b_size (p_buf dst) /\ b_size ms = b_size (p_buf dst) /\
    same (imageOf k (mkPl (p_stride dst) mv) w h) (imageOf k (mkPl (p_stride dst) ms) w h).

(** [P] holds of every sum when it holds of all that fit the bound. *)
Lemma sums_small : forall t fin m a (P : Z -> Prop) M, legalMatrix m -> zlength m <= 25 -> 0 <= M <= 65535 -> 1 <= i_w a -> 1 <= i_h a ->
  (forall x y, 0 <= x < i_w a -> 0 <= y < i_h a -> 0 <= i_at a x y <= M) -> (forall v, 0 <= fin v <= M) -> (forall v, Z.abs v <= zlength m * (1023 * M) -> P v) -> allSums t fin m a P.
Proof.
  intros t fin m a P M LM ZM M0 W H R FR PS x y X Y. pose proof (zlength_nonneg _ m) as Z0.
  assert (HB : forall b, i_w b = i_w a -> (forall u, 0 <= u < i_w a -> 0 <= i_at b u y <= M) -> P (horizontal m b x y)).
  { intros b E RB. apply PS. unfold horizontal. apply sum_bound; [exact LM | lia | exact M0 |]. intros c. apply RB. rewrite <- E. apply mirrored_in. lia. }
  assert (VB : P (vertical m a x y)).
  { apply PS. unfold vertical. apply sum_bound; [exact LM | lia | exact M0 |]. intros c. apply R; [exact X|]. apply mirrored_in. lia. }
  destruct t; [exact I | apply HB; [reflexivity | intros; apply R; assumption] | exact VB | split; [exact VB|]].
  apply HB; [reflexivity|]. intros u U. cbn [weighed i_at]. apply FR.
Qed.

Theorem kernels_quiet : forall B t vi a d sc t0 src w h dst, known B -> t <> CSquare -> fmt_valid (vi_fmt vi) -> genericCreate (OpConv t) vi a = Ok d -> divisorOk (ga_divisor a) ->
  let k := f_bytes (vi_fmt vi) in let p := gd_params d in
  checkPlaneDims (OpConv t) (g_size p) w h = true -> roomy B t p w -> goodScratch sc ->
  1 <= w < 2 ^ 31 -> 1 <= h < 2 ^ 31 -> wfPlane k src w h -> wfPlane k dst w h -> aligned B src -> aligned B dst -> byteBuf src ->
  (forall F, finishes k p F -> allSums t (fun v => Z.min (F v) (g_maxval p)) (g_matrix p) (imageOf k src w h) (quiet B p)) ->
  equalPictures B t k p sc t0 src w h dst.
Proof.
  intros B t vi a d sc t0 src w h dst KB NS V CR DV k p CK RM GS W H WS WD AS AD BB QT.
  destruct (create_ready1 t vi a d V NS CR DV) as (RD & _). fold k p in RD. pose proof RD as [K LM N3 NO MV M1 (F & FN)].
  destruct (kernel_pictures B t k p sc src w h dst KB NS RD CK RM GS W H WS WD AS AD BB) as (mv & EV & SV & (I1 & I2 & IV)).
  destruct (kernel_scalar1 t k p F t0 src w h dst NS RD FN CK W H WS WD BB) as (ms & ES & SS & (J1 & J2 & IS)).
  exists mv, ms. split; [exact EV|]. split; [exact ES|]. split; [exact SV|]. split; [exact SS|].
  assert (PK : 256 ^ k <= 65536) by (destruct K as [->| ->]; vm_compute; discriminate).
  assert (CE : same (convImage t (vfin B k p) (g_matrix p) (imageOf k src w h)) (convImage t (fun v => Z.min (F v) (g_maxval p)) (g_matrix p) (imageOf k src w h))).
  { apply convImage_ext; [cbn; lia | cbn; lia |].
    assert (SM : allSums t (fun v => Z.min (F v) (g_maxval p)) (g_matrix p) (imageOf k src w h) (fun v => Z.abs v < 2 ^ 40 )).
    { assert (G : forall G : Z -> Z, (forall v, Z.abs v < 2 ^ 40 -> 0 <= G v <= 65535) -> allSums t G (g_matrix p) (imageOf k src w h) (fun v => Z.abs v < 2 ^ 40)).
      { intros G GR. change (g_size p) with (zlength (g_matrix p)) in N3.
        assert (IR : forall x y, 0 <= x < w -> 0 <= y < h -> 0 <= i_at (imageOf k src w h) x y <= 65535) by (intros x y _ _; pose proof (image_range k src w h x y ltac:(unfold smallk in K; lia) BB); lia).
        assert (ZB : zlength (g_matrix p) * (1023 * 65535) <= 25 * (1023 * 65535)) by lia.
        assert (VB : forall x y, 0 <= x < w -> 0 <= y < h -> Z.abs (vertical (g_matrix p) (imageOf k src w h) x y) < 2 ^ 40).
        { intros x y X Y. unfold vertical. cbn [imageOf i_h]. pose proof (sum_bound (g_matrix p) (fun r => i_at (imageOf k src w h) x (mirrored h (y + r - zlength (g_matrix p) / 2))) 65535 (zlength (g_matrix p)) LM ltac:(lia) ltac:(lia)) as SB.
          cbv beta in SB. specialize (SB ltac:(intros c; apply IR; [exact X | apply mirrored_in; lia])). cbn [imageOf i_at] in *. lia. }
        assert (HB : forall b x y, i_w b = w -> (forall u, 0 <= u < w -> 0 <= i_at b u y <= 65535) -> Z.abs (horizontal (g_matrix p) b x y) < 2 ^ 40).
        { intros b x y E RB. unfold horizontal. rewrite E. pose proof (sum_bound (g_matrix p) (fun r => i_at b (mirrored w (x + r - zlength (g_matrix p) / 2)) y) 65535 (zlength (g_matrix p)) LM ltac:(lia) ltac:(lia)) as SB.
          cbv beta in SB. specialize (SB ltac:(intros c; apply RB; apply mirrored_in; lia)). lia. }
        intros x y X Y. cbn [imageOf i_w i_h] in X, Y. destruct t; [exact I | apply HB; [reflexivity | intros u U; apply IR; assumption] | apply VB; assumption | split; [apply VB; assumption|]].
        apply HB; [reflexivity|]. intros u U. cbn [weighed i_at]. apply GR. apply VB; assumption. }
      apply G. intros v Hv. destruct (FN v Hv) as (_ & FR). lia. }
    specialize (QT F FN). intros x y X Y. specialize (QT x y X Y). specialize (SM x y X Y).
    destruct t; [exact I | | |].
    - apply vfin_quiet; assumption.
    - apply vfin_quiet; assumption.
    - split; apply vfin_quiet; tauto. }
  destruct CE as (_ & _ & CE). split; [reflexivity|]. split; [reflexivity|]. intros x y X Y. rewrite IV by assumption. rewrite CE by (cbn [imageOf i_w i_h] in X, Y; destruct t; assumption).
  symmetry. apply IS; assumption.
Qed.

(** ** No bias, and a divisor of at least one *)

Lemma quiet_small : forall B g v, (exists s, g_bias g = S754_zero s) -> canon (g_div g) -> magLe (2 ^ 23) (-23) (g_div g) -> Z.abs v <= 1676083200 -> quiet B g v.
Proof. intros B g v BZ CD LD V. destruct (tame_small 1 5 g v BZ CD LD V) as (U & C & _). split; [right; exact U | exact C]. Qed.

(** A bias of at most 2^28 with SSE2. *)
Lemma quiet_sse2 : forall g v, canon (g_div g) -> magLe (2 ^ 23) (-23) (g_div g) -> canon (g_bias g) -> magLe (2 ^ 23) 5 (g_bias g) -> Z.abs v <= 1676083200 -> quiet sse2 g v.
Proof.
  intros g v CD LD CB LB V. split; [left; reflexivity|].
  assert (O : canon (of32 v 0) /\ magLe 13094400 7 (of32 v 0)).
  { unfold of32. apply normalize_le; [lia | lia | lia |]. change (13094400 * 2 ^ (7 - 0)) with 1676083200. exact V. }
  destruct O as (C1 & L1). destruct (mul_le _ _ _ _ _ _ 13094400 7 C1 CD L1 LD) as (C2 & L2); try lia.
  assert (LB' : magLe (2 ^ 21) 7 (g_bias g)) by (apply (magLe_mono (2 ^ 23) 5); [exact LB | lia | lia | vm_compute; discriminate]).
  destruct (add_le _ _ _ _ _ (13094400 + 2 ^ 21) 7 C2 CB L2 LB') as (C3 & L3); try lia.
  unfold convF. cbv zeta. destruct (g_sat g).
  - apply (calm_le (13094400 + 2 ^ 21) 7); try assumption; lia.
  - apply (calm_le (13094400 + 2 ^ 21) 7); try lia; [apply abs_canon; exact C3 | apply abs_magLe; exact L3].
Qed.

(** A power of two and sums of 24 bits. *)
Lemma quiet_pow2 : forall B g v j, -60 <= j <= 60 -> g_div g = of32 1 j \/ g_div g = SFopp (of32 1 j) -> canon (g_div g) -> magLe (2 ^ 23) (-23) (g_div g) ->
  canon (g_bias g) -> magLe (2 ^ 23) 6 (g_bias g) -> Z.abs v < 2 ^ 24 -> quiet B g v.
Proof. intros B g v j J DE CD LD CB LB V. destruct (tame_pow2 1 5 g v j J DE CD LD CB LB V) as (U & C & _). split; [right; exact U | exact C]. Qed.

Lemma kernels_of_sums : forall B t vi a d sc t0 src w h dst, known B -> t <> CSquare -> fmt_valid (vi_fmt vi) -> genericCreate (OpConv t) vi a = Ok d -> divisorOk (ga_divisor a) ->
  let k := f_bytes (vi_fmt vi) in let p := gd_params d in
  checkPlaneDims (OpConv t) (g_size p) w h = true -> roomy B t p w -> goodScratch sc ->
  1 <= w < 2 ^ 31 -> 1 <= h < 2 ^ 31 -> wfPlane k src w h -> wfPlane k dst w h -> aligned B src -> aligned B dst -> byteBuf src ->
  within k (g_maxval p) src w h -> (forall v, Z.abs v <= g_size p * (1023 * g_maxval p) -> quiet B p v) ->
  equalPictures B t k p sc t0 src w h dst.
Proof.
  intros B t vi a d sc t0 src w h dst KB NS V CR DV k p CK RM GS W H WS WD AS AD BB WI QT.
  apply (kernels_quiet B t vi a d); auto. fold k p. intros F FN.
  destruct (create_ready1 t vi a d V NS CR DV) as (RD & _). fold k p in RD. pose proof RD as [K LM N3 NO MV M1 _].
  assert (PK : 256 ^ k <= 65536) by (destruct K as [->| ->]; vm_compute; discriminate).
  change (g_size p) with (zlength (g_matrix p)) in *.
  (* a second pass sees finished samples only where the first one made sums below 2^40 *)
  assert (G : forall F', (forall v, Z.abs v < 2 ^ 40 -> F' v = Z.min (F v) (g_maxval p)) -> (forall v, 0 <= F' v <= g_maxval p) -> allSums t F' (g_matrix p) (imageOf k src w h) (quiet B p)).
  { intros F' _ FR. apply (sums_small t F' (g_matrix p) (imageOf k src w h) (quiet B p) (g_maxval p)); auto; cbn; lia. }
  set (F' := fun v => if Z.abs v <? 2 ^ 40 then Z.min (F v) (g_maxval p) else 0).
  assert (F1 : forall v, Z.abs v < 2 ^ 40 -> F' v = Z.min (F v) (g_maxval p)) by (intros v Hv; unfold F'; rewrite (proj2 (Z.ltb_lt _ _) Hv); reflexivity).
  assert (F2 : forall v, 0 <= F' v <= g_maxval p) by (intros v; unfold F'; destruct (Z.ltb_spec (Z.abs v) (2 ^ 40)) as [Hv|]; [destruct (FN v Hv) as (_ & FR); lia | lia]).
  specialize (G F' F1 F2). intros x y X Y. specialize (G x y X Y). destruct t; auto.
  destruct G as (G1 & G2). split; [exact G1|]. replace (horizontal _ _ x y) with (horizontal (g_matrix p) (weighed F' (vertical (g_matrix p)) (imageOf k src w h)) x y); [exact G2|].
  cbn [imageOf i_w i_h] in X, Y. apply horizontal_ext; [reflexivity | cbn; lia |]. intros u U. cbn [weighed i_at]. apply F1.
  unfold vertical. cbn [imageOf i_h]. pose proof (sum_bound (g_matrix p) (fun r => i_at (imageOf k src w h) u (mirrored h (y + r - zlength (g_matrix p) / 2))) 65535 (zlength (g_matrix p)) LM ltac:(lia) ltac:(lia)) as SB.
  cbv beta in SB. specialize (SB ltac:(intros c; pose proof (image_range k src w h u (mirrored h (y + c - zlength (g_matrix p) / 2)) ltac:(unfold smallk in K; lia) BB); lia)). cbn [imageOf i_at] in *. lia.
Qed.

Theorem kernels_no_bias : forall B t vi a d sc t0 src w h dst, known B -> t <> CSquare -> fmt_valid (vi_fmt vi) -> genericCreate (OpConv t) vi a = Ok d -> divisorOk (ga_divisor a) -> ga_bias a = None ->
  let k := f_bytes (vi_fmt vi) in let p := gd_params d in
  canon (g_div p) -> magLe (2 ^ 23) (-23) (g_div p) ->
  checkPlaneDims (OpConv t) (g_size p) w h = true -> roomy B t p w -> goodScratch sc ->
  1 <= w < 2 ^ 31 -> 1 <= h < 2 ^ 31 -> wfPlane k src w h -> wfPlane k dst w h -> aligned B src -> aligned B dst -> byteBuf src -> within k (g_maxval p) src w h ->
  equalPictures B t k p sc t0 src w h dst.
Proof.
  intros B t vi a d sc t0 src w h dst KB NS V CR DV NB k p CD LD CK RM GS W H WS WD AS AD BB WI. apply (kernels_of_sums B t vi a d); auto. fold k p.
  destruct (create_ready1 t vi a d V NS CR DV) as (RD & _). fold k p in RD. destruct RD as [K LM N3 NO MV M1 _].
  pose proof (create_inv _ vi a d V CR) as C. destruct (cr_conv _ _ _ _ C _ eq_refl) as (_ & _ & _ & _ & _ & BE). rewrite NB in BE. fold p in BE.
  assert (PK : 256 ^ k <= 65536) by (destruct K as [->| ->]; vm_compute; discriminate).
  intros v Hv. apply quiet_small; [exists false; exact BE | exact CD | exact LD |]. assert (g_size p * (1023 * g_maxval p) <= 25 * (1023 * 65535)) by nia. lia.
Qed.

Theorem kernels_sse2 : forall t vi a d sc t0 src w h dst, t <> CSquare -> fmt_valid (vi_fmt vi) -> genericCreate (OpConv t) vi a = Ok d -> divisorOk (ga_divisor a) ->
  let k := f_bytes (vi_fmt vi) in let p := gd_params d in
  canon (g_div p) -> magLe (2 ^ 23) (-23) (g_div p) -> canon (g_bias p) -> magLe (2 ^ 23) 5 (g_bias p) ->
  checkPlaneDims (OpConv t) (g_size p) w h = true -> goodScratch sc ->
  1 <= w < 2 ^ 31 -> 1 <= h < 2 ^ 31 -> wfPlane k src w h -> wfPlane k dst w h -> aligned sse2 src -> aligned sse2 dst -> byteBuf src -> within k (g_maxval p) src w h ->
  equalPictures sse2 t k p sc t0 src w h dst.
Proof.
  intros t vi a d sc t0 src w h dst NS V CR DV k p CD LD CB LB CK GS W H WS WD AS AD BB WI.
  destruct (create_ready1 t vi a d V NS CR DV) as (RD & _). fold k p in RD. pose proof RD as [K LM N3 NO MV M1 _].
  apply (kernels_of_sums sse2 t vi a d); auto; fold k p.
  - left. reflexivity.
  - apply (room_narrow sse2 t k); [left; reflexivity | exact RD | lia].
  - assert (PK : 256 ^ k <= 65536) by (destruct K as [->| ->]; vm_compute; discriminate).
    intros v Hv. apply quiet_sse2; auto. assert (g_size p * (1023 * g_maxval p) <= 25 * (1023 * 65535)) by nia. lia.
Qed.

Theorem kernels_pow2_1d : forall B t vi a d sc t0 src w h dst j, known B -> t <> CSquare -> fmt_valid (vi_fmt vi) -> genericCreate (OpConv t) vi a = Ok d -> divisorOk (ga_divisor a) ->
  let k := f_bytes (vi_fmt vi) in let p := gd_params d in
  -60 <= j <= 60 -> g_div p = of32 1 j \/ g_div p = SFopp (of32 1 j) -> canon (g_div p) -> magLe (2 ^ 23) (-23) (g_div p) -> canon (g_bias p) -> magLe (2 ^ 23) 6 (g_bias p) ->
  g_size p * (1023 * g_maxval p) < 2 ^ 24 ->
  checkPlaneDims (OpConv t) (g_size p) w h = true -> roomy B t p w -> goodScratch sc ->
  1 <= w < 2 ^ 31 -> 1 <= h < 2 ^ 31 -> wfPlane k src w h -> wfPlane k dst w h -> aligned B src -> aligned B dst -> byteBuf src -> within k (g_maxval p) src w h ->
  equalPictures B t k p sc t0 src w h dst.
Proof.
  intros B t vi a d sc t0 src w h dst j KB NS V CR DV k p J DE CD LD CB LB NM CK RM GS W H WS WD AS AD BB WI. apply (kernels_of_sums B t vi a d); auto. fold k p.
  intros v Hv. apply (quiet_pow2 B p v j); auto. lia.
Qed.

(** ** Where they differ *)

Lemma horizontal_flat : forall m a v x y, (forall u t, i_at a u t = v) -> horizontal m a x y = v * sumL (map (GenericSpec.coef m) (zseq (zlength m))).
Proof.
  intros m a v x y E. unfold horizontal. generalize (zseq (zlength m)). induction l as [|c l IH]; [unfold sumL; cbn [map fold_right]; ring|]. unfold sumL in *. cbn [map fold_right]. rewrite IH, E. ring.
Qed.
Lemma vertical_flat : forall m a v x y, (forall u t, i_at a u t = v) -> vertical m a x y = v * sumL (map (GenericSpec.coef m) (zseq (zlength m))).
Proof.
  intros m a v x y E. unfold vertical. generalize (zseq (zlength m)). induction l as [|c l IH]; [unfold sumL; cbn [map fold_right]; ring|]. unfold sumL in *. cbn [map fold_right]. rewrite IH, E. ring.
Qed.

(** A clip of 64x16 in format [f], one value everywhere: the vector kernel gives [v], the scalar
    one [s]. *)
Definition parts (B : backend) (t : convType) (f : vfmt) (b : Z) (a : gargs) (v s : Z) : Prop :=
  exists d, genericCreate (OpConv t) (mkVI f 64 16 1) a = Ok d /\
    let k := f_bytes f in let p := gd_params d in let src := flat k 64 16 b in
    forall sc t0, goodScratch sc -> exists mv ms, convKernel B t k p sc src 64 16 src = Ok mv /\ kernelOf (OpConv t) k p t0 src 64 16 src = Ok ms /\
      forall x y, 0 <= x < 64 -> 0 <= y < 16 -> i_at (imageOf k (mkPl (p_stride src) mv) 64 16) x y = v /\ i_at (imageOf k (mkPl (p_stride src) ms) 64 16) x y = s.

Lemma parts_of : forall B t f b a d v s q, known B -> t = CHorizontal \/ t = CVertical -> fmt_valid f -> 0 <= b < 256 -> genericCreate (OpConv t) (mkVI f 64 16 1) a = Ok d -> divisorOk (ga_divisor a) ->
  let k := f_bytes f in let p := gd_params d in checkPlaneDims (OpConv t) (g_size p) 64 16 = true ->
  (if k =? 1 then b else b + 256 * b) * sumL (map (GenericSpec.coef (g_matrix p)) (zseq (zlength (g_matrix p)))) = q -> Z.abs q < 2 ^ 40 ->
  vfin B k p q = v -> obind (finish k p q) (fun u => Ok (Z.min u (g_maxval p))) = Ok s -> parts B t f b a v s.
Proof.
  intros B t f b a d v s q KB T FV B0 CR DV k p CK Q Q40 VE SE. assert (NS : t <> CSquare) by (destruct T as [->| ->]; discriminate).
  destruct (create_ready1 t (mkVI f 64 16 1) a d FV NS CR DV) as (RD & _). cbn [vi_fmt] in RD. fold k p in RD.
  exists d. split; [exact CR|]. cbv zeta. fold k p. intros sc t0 GS. set (src := flat k 64 16 b).
  pose proof RD as [K LM N3 NO MV M1 (F & FN)].
  assert (WS : wfPlane k src 64 16) by (unfold wfPlane, src, flat; cbn [p_stride p_buf b_size]; unfold smallk in K; lia).
  assert (AL : aligned B src).
  { unfold aligned, src, flat. cbn [p_stride]. destruct K as [E|E]; rewrite E; destruct KB as [->|[->| ->]]; reflexivity. }
  assert (BB : byteBuf src) by (intros x; exact B0).
  assert (FL : forall u t, i_at (imageOf k src 64 16) u t = if k =? 1 then b else b + 256 * b).
  { intros u z. unfold src, flat. cbn [imageOf i_at p_buf b_data p_stride]. generalize (z * (64 * k) + u * k). intros o.
    destruct K as [E|E]; rewrite E; [change (Z.to_nat 1) with 1%nat | change (Z.to_nat 2) with 2%nat]; cbn [Z.eqb Pos.eqb leval]; lia. }
  assert (FQ : Z.min (F q) (g_maxval p) = s) by (destruct (FN q Q40) as (E & _); rewrite E in SE; cbn [obind] in SE; congruence).
  destruct (kernel_pictures B t k p sc src 64 16 src KB NS RD CK) as (mv & EV & _ & (_ & _ & IV)); auto; try lia; [destruct T as [->| ->]; exact I|].
  destruct (kernel_scalar1 t k p F t0 src 64 16 src NS RD FN CK) as (ms & ES & _ & (_ & _ & IS)); auto; try lia.
  exists mv, ms. split; [exact EV|]. split; [exact ES|]. intros x y X Y. rewrite IV, IS by (cbn [imageOf i_w i_h]; assumption).
  destruct T as [->| ->]; cbn [convImage weighed i_at]; [rewrite !(horizontal_flat _ _ _ x y FL) | rewrite !(vertical_flat _ _ _ x y FL)]; rewrite Q; split; assumption.
Qed.

(** 3 taps, weight 257, divisor 6, bias -128 on samples of value 3: the fused product of the AVX2
    and AVX-512 code rounds once. *)
Definition half3 : gargs := conv [0; 257; 0] (Some (num (-128))) (Some (num 6)).
Lemma half3_differs : forall B t, B = avx2 \/ B = avx512 -> t = CHorizontal \/ t = CVertical -> parts B t gray8 3 half3 1 0.
Proof.
  intros B t BE T. assert (KB : known B) by (unfold known; tauto).
  destruct (genericCreate (OpConv t) (mkVI gray8 64 16 1) half3) as [d| |] eqn:CR; try (destruct T as [->| ->]; vm_compute in CR; discriminate CR).
  apply (parts_of B t gray8 3 half3 d 1 0 771); auto.
  - exact gray8_valid.
  - lia.
  - vm_compute. repeat split; try discriminate; reflexivity.
  - destruct T as [->| ->]; vm_compute in CR; injection CR as <-; vm_compute; reflexivity.
  - destruct T as [->| ->]; vm_compute in CR; injection CR as <-; vm_compute; reflexivity.
  - reflexivity.
  - destruct T as [->| ->]; vm_compute in CR; injection CR as <-; destruct BE as [->| ->]; vm_compute; reflexivity.
  - destruct T as [->| ->]; vm_compute in CR; injection CR as <-; vm_compute; reflexivity.
Qed.

(** The divisor 2^-12: white turns black in every vector kernel. *)
Definition loud3 : gargs := conv [1023; 1023; 1023] None (Some (of64 1 (-12))).
Lemma loud3_differs : forall B t, known B -> t = CHorizontal \/ t = CVertical -> parts B t gray8 255 loud3 0 255.
Proof.
  intros B t KB T.
  destruct (genericCreate (OpConv t) (mkVI gray8 64 16 1) loud3) as [d| |] eqn:CR; try (destruct T as [->| ->]; vm_compute in CR; discriminate CR).
  apply (parts_of B t gray8 255 loud3 d 0 255 782595); auto.
  - exact gray8_valid.
  - lia.
  - vm_compute. repeat split; try discriminate; reflexivity.
  - destruct T as [->| ->]; vm_compute in CR; injection CR as <-; vm_compute; reflexivity.
  - destruct T as [->| ->]; vm_compute in CR; injection CR as <-; vm_compute; reflexivity.
  - reflexivity.
  - destruct T as [->| ->]; vm_compute in CR; injection CR as <-; destruct KB as [->|[->| ->]]; vm_compute; reflexivity.
  - destruct T as [->| ->]; vm_compute in CR; injection CR as <-; vm_compute; reflexivity.
Qed.

(** ** Reads past the end *)

Theorem separable_room : forall B vi a d sc src w h dst, known B -> fmt_valid (vi_fmt vi) -> genericCreate (OpConv CSeparable) vi a = Ok d -> divisorOk (ga_divisor a) ->
  let k := f_bytes (vi_fmt vi) in let p := gd_params d in
  checkPlaneDims (OpConv CSeparable) (g_size p) w h = true -> goodScratch sc ->
  1 <= w < 2 ^ 31 -> 1 <= h < 2 ^ 31 -> wfPlane k src w h -> wfPlane k dst w h -> aligned B src -> aligned B dst -> byteBuf src ->
  (exists m, convKernel B CSeparable k p sc src w h dst = Ok m) <-> roomy B CSeparable p w.
Proof.
  intros B vi a d sc src w h dst KB V CR DV k p CK GS W H WS WD AS AD BB.
  destruct (create_ready1 CSeparable vi a d V ltac:(discriminate) CR DV) as (RD & _). fold k p in RD. pose proof RD as [K LM N3 NO MV M1 _].
  destruct (dims_ok CSeparable _ w h CK) as (DW & DH). destruct GS as (GS1 & GS2). split.
  - intros (m & E). cbn [convKernel] in E. apply (convXV_room B k p sc src w h dst m); assumption.
  - intros RM. destruct (kernel_pictures B CSeparable k p sc src w h dst KB ltac:(discriminate) RD CK RM (conj GS1 GS2) W H WS WD AS AD BB) as (m & E & _). exists m. exact E.
Qed.

Theorem no_room : forall vi a d sc src w h dst, fmt_valid (vi_fmt vi) -> genericCreate (OpConv CSeparable) vi a = Ok d -> divisorOk (ga_divisor a) ->
  let k := f_bytes (vi_fmt vi) in let p := gd_params d in
  checkPlaneDims (OpConv CSeparable) (g_size p) w h = true -> goodScratch sc ->
  1 <= w < 2 ^ 31 -> 1 <= h < 2 ^ 31 -> wfPlane k src w h -> wfPlane k dst w h -> aligned avx512 src -> aligned avx512 dst -> byteBuf src ->
  w mod 32 = 1 -> forall m, convKernel avx512 CSeparable k p sc src w h dst <> Ok m.
Proof.
  intros vi a d sc src w h dst V CR DV k p CK GS W H WS WD AS AD BB WM m E.
  destruct (create_ready1 CSeparable vi a d V ltac:(discriminate) CR DV) as (RD & _). fold k p in RD. pose proof RD as [K LM N3 NO MV M1 _].
  assert (RM : roomy avx512 CSeparable p w) by (apply (separable_room avx512 vi a d sc src w h dst); auto; [right; right; reflexivity | exists m; exact E]).
  unfold roomy, blocksOf in RM. change (pels avx512) with 32 in RM.
  assert (NE : g_size p = 2 * (g_size p / 2) + 1) by (pose proof (odd_half (g_size p) NO); lia). set (s := g_size p / 2) in *.
  assert (RL : 2 <= reach p - 1 - s).
  { unfold reach. destruct (Z.eqb_spec (g_size p) 13); cbn [orb]; [lia|]. destruct (Z.eqb_spec (g_size p) 25); cbn [orb]; lia. }
  assert (BL : (w + 32 - 1) / 32 * 32 = w + 31) by (Z.to_euclidean_division_equations; lia). lia.
Qed.

(** Small runs. *)
Definition blank : scratch := mkSc (fun _ => 0) (fun _ => 0) (fun _ => 0) (fun _ => 0).
Definition strip (k h s : Z) : plane := mkPl s (mkB (s * h) (fun a => if k =? 1 then a mod 251 else if Z.even a then a mod 251 else 3)).
Definition picks (k w h s : Z) (o : outcome pbuf) (l : list (Z * Z)) : outcome (list Z) :=
  obind o (fun m => Ok (map (fun q => i_at (imageOf k (mkPl s m) w h) (fst q) (snd q)) l)).
Definition ran (B : backend) (t : convType) (f : vfmt) (a : gargs) (w h s : Z) (q : list (Z * Z)) : outcome (list Z) * outcome (list Z) :=
  match genericCreate (OpConv t) (mkVI f w h 1) a with
  | Ok d => let k := f_bytes f in let p := strip k h s in
     (picks k w h s (convKernel B t k (gd_params d) blank p w h p) q, picks k w h s (kernelOf (OpConv t) k (gd_params d) (fun _ => 0) p w h p) q)
  | _ => (Err, Err)
  end.
