(** The float part of the kernels: always a value, exact where it should be. *)
From Coq Require Import ZArith List Lia Bool.
From Coq Require Import SpecFloat.
From Verif Require Import Common ImageSpec PixelSpec Lut Soft SoftLemmas SoftBounds GenericSpec Generic GenericOps GenericPlanes.
Import ListNotations.
Open Scope Z_scope.

Lemma xrint_total : forall k x, smallk k -> short 24 x -> exists v, xrint k x = Ok v /\ 0 <= v < 256 ^ k.
Proof.
  intros k x K S.
  assert (Q : exists v, lrint (fmin (fmax x (of32 0 0)) (of32 (256 ^ k - 1) 0)) = Ok v /\ 0 <= v <= 256 ^ k - 1).
  { destruct K as [->| ->];
      [apply (clamp_lrint x 255 16711680 (-16)) | apply (clamp_lrint x 65535 16776960 (-8))]; try exact S; try reflexivity; try lia. }
  destruct Q as (v & E & V). exists v. unfold xrint. rewrite E. unfold obind. rewrite Z.mod_small by lia. split; [reflexivity | lia].
Qed.

(** ** Convolution *)

Definition sound (g : gparams) : Prop := isFin (g_div g) = true /\ isFin (g_bias g) = true /\ short 24 (g_bias g).

Lemma finish_total : forall k g, smallk k -> sound g -> exists F, finishes k g F.
Proof.
  intros k g K (D & B & SB). exists (fun a => match finish k g a with Ok v => v | _ => 0 end). intros a A.
  assert (T : exists v, finish k g a = Ok v /\ 0 <= v < 256 ^ k).
  { unfold finish. apply xrint_total; [exact K|].
    assert (S : short 24 (add32 (mul32 (of32 a 0) (g_div g)) (g_bias g))).
    { apply add_short; [lia | | exact SB | exact B]. apply mul_short; [lia | apply of32_fin; lia | exact D]. }
    destruct (g_sat g); [exact S | apply abs_short; exact S]. }
  destruct T as (v & -> & V). split; [reflexivity | exact V].
Qed.

(** *** Exactness: integers below 2^24 are floats, and 1 and 0 are neutral *)

Lemma iter_shr_exact : forall p m, 0 < m -> iter_pos shr_1 p {| shr_m := m * 2 ^ Z.pos p; shr_r := false; shr_s := false |} =
  {| shr_m := m; shr_r := false; shr_s := false |}.
Proof.
  assert (S1 : forall m, 0 < m -> shr_1 {| shr_m := m * 2; shr_r := false; shr_s := false |} = {| shr_m := m; shr_r := false; shr_s := false |}).
  { intros [|m|m] M; try lia. replace (Z.pos m * 2) with (Z.pos m~0) by lia. reflexivity. }
  induction p as [p IH|p IH|]; intros m M; cbn [iter_pos].
  - assert (PP : 0 < 2 ^ Z.pos p) by (apply Z.pow_pos_nonneg; lia).
    replace (m * 2 ^ Z.pos p~1) with (m * 2 ^ Z.pos p * 2 ^ Z.pos p * 2).
    2:{ replace (Z.pos p~1) with (Z.pos p + Z.pos p + 1) by lia. rewrite !Z.pow_add_r by lia. ring. }
    rewrite S1 by nia. rewrite (IH (m * 2 ^ Z.pos p)) by nia. apply IH. exact M.
  - assert (PP : 0 < 2 ^ Z.pos p) by (apply Z.pow_pos_nonneg; lia).
    replace (m * 2 ^ Z.pos p~0) with (m * 2 ^ Z.pos p * 2 ^ Z.pos p).
    2:{ replace (Z.pos p~0) with (Z.pos p + Z.pos p) by lia. rewrite !Z.pow_add_r by lia. ring. }
    rewrite (IH (m * 2 ^ Z.pos p)) by nia. apply IH. exact M.
  - change (2 ^ 1) with 2. apply S1. exact M.
Qed.

(** Rounding m * 2^n * 2^(e - n) with m of exactly 24 bits. *)
Lemma round_aux_exact : forall s m n e, 2 ^ 23 <= Z.pos m < 2 ^ 24 -> 0 <= n -> -149 <= e <= 104 ->
  binary_round_aux 24 128 s (Z.pos m * 2 ^ n) (e - n) loc_Exact = S754_finite s m e.
Proof.
  intros s m n e M N E.
  assert (D : Zdigits2 (Z.pos m) = 24).
  { cbn [Zdigits2]. pose proof (digits2_bound m). pose proof (digits2_low m). set (d := Z.pos (digits2_pos m)) in *.
    assert (d <= 24). { destruct (Z.le_gt_cases d 24); [assumption|]. assert (2 ^ 24 <= 2 ^ (d - 1)) by (apply Z.pow_le_mono_r; lia). lia. }
    assert (24 <= d). { destruct (Z.le_gt_cases 24 d); [assumption|]. assert (2 ^ d <= 2 ^ 23) by (apply Z.pow_le_mono_r; lia). lia. }
    lia. }
  assert (F : forall m0 e0, m0 = Z.pos m * 2 ^ (e - e0) -> e0 <= e -> shr_fexp 24 128 m0 e0 loc_Exact = ({| shr_m := Z.pos m; shr_r := false; shr_s := false |}, e)).
  { intros m0 e0 -> E0. unfold shr_fexp. rewrite (Zdigits2_mul m) by lia. rewrite D. cbn [shr_record_of_loc].
    replace (fexp 24 128 (24 + (e - e0) + e0) - e0) with (e - e0) by (unfold fexp, SpecFloat.emin; lia).
    destruct (e - e0) as [|p|p] eqn:Q; cbn [shr].
    - rewrite Z.pow_0_r, Z.mul_1_r. f_equal. lia.
    - rewrite (iter_shr_exact p (Z.pos m)) by lia. f_equal. lia.
    - lia. }
  unfold binary_round_aux. rewrite (F _ (e - n)) by (try f_equal; try f_equal; lia).
  cbn [shr_m loc_of_shr_record round_nearest_even]. rewrite (F _ e) by (try lia; rewrite Z.sub_diag, Z.pow_0_r; lia).
  cbn [shr_m]. destruct (Z.leb_spec e (128 - 24)); [reflexivity | lia].
Qed.

(** The float of a positive integer below 2^24. *)
Definition floatOf (s : bool) (p : positive) : fl :=
  let d := Z.pos (digits2_pos p) in S754_finite s (fst (shl_align p 0 (d - 24))) (d - 24).

Lemma floatOf_spec : forall p, Z.pos p < 2 ^ 24 -> let d := Z.pos (digits2_pos p) in let m := fst (shl_align p 0 (d - 24)) in
  1 <= d <= 24 /\ Z.pos m = Z.pos p * 2 ^ (24 - d) /\ 2 ^ 23 <= Z.pos m < 2 ^ 24.
Proof.
  intros p P d m. pose proof (digits2_bound p) as U. pose proof (digits2_low p) as L. fold d in U, L.
  assert (D1 : 1 <= d) by (unfold d; lia).
  assert (D : d <= 24). { destruct (Z.le_gt_cases d 24); [assumption|]. assert (2 ^ 24 <= 2 ^ (d - 1)) by (apply Z.pow_le_mono_r; lia). lia. }
  split; [lia|]. pose proof (shl_align_spec p 0 (d - 24)) as (_ & S). fold m in S. replace (0 - Z.min 0 (d - 24)) with (24 - d) in S by lia.
  split; [exact S|]. rewrite S. assert (P2 : 0 < 2 ^ (24 - d)) by (apply Z.pow_pos_nonneg; lia). split.
  - replace 23 with ((d - 1) + (24 - d)) by lia. rewrite Z.pow_add_r by lia. nia.
  - replace (2 ^ 24) with (2 ^ d * 2 ^ (24 - d)) by (rewrite <- Z.pow_add_r by lia; f_equal; lia). nia.
Qed.

Lemma round_exact : forall s p, Z.pos p < 2 ^ 24 -> binary_round 24 128 s p 0 = floatOf s p.
Proof.
  intros s p P. destruct (floatOf_spec p P) as (D & M & R). unfold binary_round, floatOf.
  replace (fexp 24 128 (Z.pos (digits2_pos p) + 0)) with (Z.pos (digits2_pos p) - 24) by (unfold fexp, SpecFloat.emin; lia).
  pose proof (shl_align_spec p 0 (Z.pos (digits2_pos p) - 24)) as (S1 & _).
  destruct (shl_align p 0 (Z.pos (digits2_pos p) - 24)) as (mz & ez). cbn [fst snd] in *. subst ez.
  replace (Z.min 0 (Z.pos (digits2_pos p) - 24)) with (Z.pos (digits2_pos p) - 24 - 0) by lia.
  replace (Z.pos mz) with (Z.pos mz * 2 ^ 0) at 1 by (rewrite Z.pow_0_r; lia). apply round_aux_exact; lia.
Qed.

Definition floatZ (v : Z) : fl := match v with Z0 => S754_zero false | Z.pos p => floatOf false p | Z.neg p => floatOf true p end.
Lemma of32_exact : forall v, Z.abs v < 2 ^ 24 -> of32 v 0 = floatZ v.
Proof. intros [|p|p] V; unfold of32; cbn [binary_normalize floatZ]; [reflexivity | apply round_exact; lia | apply round_exact; lia]. Qed.

Lemma mul_one : forall v, Z.abs v < 2 ^ 24 -> mul32 (floatZ v) (of32 1 0) = floatZ v.
Proof.
  intros v V. change (of32 1 0) with (S754_finite false 8388608 (-23)).
  assert (G : forall s p, Z.pos p < 2 ^ 24 -> mul32 (floatOf s p) (S754_finite false 8388608 (-23)) = floatOf s p).
  { intros s p P. destruct (floatOf_spec p P) as (D & M & R). unfold floatOf, mul32. cbn [SFmul]. rewrite xorb_false_r.
    set (mz := fst (shl_align p 0 (Z.pos (digits2_pos p) - 24))) in *.
    replace (Z.pos (digits2_pos p) - 24 + -23) with (Z.pos (digits2_pos p) - 24 - 23) by lia.
    replace (Z.pos (mz * 8388608)) with (Z.pos mz * 2 ^ 23) by (rewrite Pos2Z.inj_mul; reflexivity). apply round_aux_exact; lia. }
  destruct v as [|p|p]; cbn [floatZ]; [reflexivity | apply G; lia | apply G; lia].
Qed.
Lemma add_zero : forall v, add32 (floatZ v) (of32 0 0) = floatZ v.
Proof. intros [|p|p]; reflexivity. Qed.

Lemma mag_exact : forall p, Z.pos p < 2 ^ 24 -> mag_rne (fst (shl_align p 0 (Z.pos (digits2_pos p) - 24))) (Z.pos (digits2_pos p) - 24) = Z.pos p.
Proof.
  intros p P. destruct (floatOf_spec p P) as (D & M & R). set (d := Z.pos (digits2_pos p)) in *. set (mz := fst (shl_align p 0 (d - 24))) in *.
  unfold mag_rne. destruct (Z.leb_spec 0 (d - 24)).
  - rewrite M. replace (d - 24) with 0 by lia. replace (24 - d) with 0 by lia. rewrite Z.pow_0_r. lia.
  - cbv zeta. rewrite M. replace (- (d - 24)) with (24 - d) by lia.
    assert (P2 : 0 < 2 ^ (24 - d)) by (apply Z.pow_pos_nonneg; lia). rewrite Z.mod_mul, Z.div_mul by lia.
    destruct (Z.ltb_spec (2 * 0) (2 ^ (24 - d))); lia.
Qed.
Lemma lrint_exact : forall v, Z.abs v < 2 ^ 24 -> lrint (floatZ v) = Ok v.
Proof.
  assert (I : forall v, Z.abs v < 2 ^ 24 -> in_int64b v = true) by (intros v V; apply in_int64b_spec; unfold in_int64, INT64_MIN, INT64_MAX; lia).
  intros [|p|p] V; cbn [floatZ]; [reflexivity| |]; unfold floatOf; cbn [lrint signed]; rewrite mag_exact by lia; rewrite I by lia; f_equal; lia.
Qed.

(** Comparison of integers as floats. *)
Lemma cmp_floats : forall p q, Z.pos p < 2 ^ 24 -> Z.pos q < 2 ^ 24 -> Z.pos p < Z.pos q ->
  SFltb (floatOf false p) (floatOf false q) = true.
Proof.
  intros p q P Q L. destruct (floatOf_spec p P) as (D & M & R). destruct (floatOf_spec q Q) as (D' & M' & R').
  unfold floatOf, SFltb. cbn [SFcompare]. set (d := Z.pos (digits2_pos p)) in *. set (d' := Z.pos (digits2_pos q)) in *.
  set (m := fst (shl_align p 0 (d - 24))) in *. set (m' := fst (shl_align q 0 (d' - 24))) in *.
  assert (DD : d <= d').
  { destruct (Z.le_gt_cases d d'); [assumption|exfalso]. pose proof (digits2_low p) as Lp. pose proof (digits2_bound q) as Uq. fold d in Lp. fold d' in Uq.
    assert (2 ^ d' <= 2 ^ (d - 1)) by (apply Z.pow_le_mono_r; lia). lia. }
  destruct (Z.eq_dec d d') as [E|E].
  - rewrite E, Z.compare_refl. assert (C : Pos.compare m m' = Lt).
    { apply Pos.compare_lt_iff. assert (MM : Z.pos m < Z.pos m'); [|exact MM].
      rewrite M, M', E. apply Z.mul_lt_mono_pos_r; [apply Z.pow_pos_nonneg; lia | exact L]. }
    change (match Pos.compare m m' with Lt => true | _ => false end = true). rewrite C. reflexivity.
  - assert (C : (d - 24 ?= d' - 24) = Lt) by (apply Z.compare_lt_iff; lia). rewrite C. reflexivity.
Qed.
Lemma cmp_floats_not : forall p q, Z.pos p < 2 ^ 24 -> Z.pos q < 2 ^ 24 -> Z.pos q <= Z.pos p ->
  SFltb (floatOf false p) (floatOf false q) = false.
Proof.
  intros p q P Q L. destruct (Z.eq_dec (Z.pos p) (Z.pos q)) as [E|E].
  - injection E as ->. unfold floatOf, SFltb. cbn [SFcompare]. rewrite Z.compare_refl.
    change (match Pos.compare (fst (shl_align q 0 (Z.pos (digits2_pos q) - 24))) (fst (shl_align q 0 (Z.pos (digits2_pos q) - 24))) with Lt => true | _ => false end = false).
    rewrite Pos.compare_refl. reflexivity.
  - pose proof (cmp_floats q p Q P ltac:(lia)) as C. revert C. unfold floatOf, SFltb. cbn [SFcompare].
    set (e := Z.pos (digits2_pos p) - 24). set (e' := Z.pos (digits2_pos q) - 24).
    rewrite (Z.compare_antisym e' e). destruct (e' ?= e); cbn [CompOpp]; try discriminate; [|reflexivity].
    set (m := fst (shl_align p 0 e)). set (m' := fst (shl_align q 0 e')).
    change (match Pos.compare m' m with Lt => true | _ => false end = true -> match Pos.compare m m' with Lt => true | _ => false end = false).
    rewrite (Pos.compare_antisym m' m). destruct (Pos.compare m' m); cbn [CompOpp]; try discriminate. reflexivity.
Qed.

Lemma xrint_exact : forall k v, smallk k -> Z.abs v < 2 ^ 24 -> xrint k (floatZ v) = Ok (Z.min (256 ^ k - 1) (Z.max 0 v)).
Proof.
  intros k v K V. pose proof (smallk_pow k K) as PK. unfold xrint. rewrite of32_zero.
  assert (E1 : fmax (floatZ v) (S754_zero false) = floatZ (Z.max 0 v)) by (destruct v as [|p|p]; reflexivity).
  rewrite E1. rewrite (of32_exact (256 ^ k - 1)) by lia.
  assert (E2 : fmin (floatZ (Z.max 0 v)) (floatZ (256 ^ k - 1)) = floatZ (Z.min (256 ^ k - 1) (Z.max 0 v))).
  { destruct (256 ^ k - 1) as [|t|t] eqn:T; try lia. destruct (Z.max 0 v) as [|p|p] eqn:MX; try lia.
    - rewrite Z.min_r by lia. reflexivity.
    - cbn [floatZ]. unfold fmin. destruct (Z.le_gt_cases (Z.pos p) (Z.pos t)).
      + rewrite cmp_floats_not by lia. rewrite Z.min_r by lia. reflexivity.
      + rewrite cmp_floats by lia. rewrite Z.min_l by lia. reflexivity. }
  rewrite E2, lrint_exact by lia. unfold obind. rewrite Z.mod_small by lia. reflexivity.
Qed.

Lemma abs_exact : forall v, SFabs (floatZ v) = floatZ (Z.abs v).
Proof. intros [|p|p]; reflexivity. Qed.

(** Divisor 1, bias 0: the sum itself (or its magnitude), clamped to the sample type. *)
Lemma finish_unit : forall k g a, smallk k -> g_div g = of32 1 0 -> g_bias g = of32 0 0 -> Z.abs a < 2 ^ 24 ->
  finish k g a = Ok (Z.min (256 ^ k - 1) (Z.max 0 (if g_sat g then a else Z.abs a))).
Proof.
  intros k g a K D B A. unfold finish. rewrite D, B, of32_exact by exact A. rewrite mul_one by exact A. rewrite add_zero.
  destruct (g_sat g); [apply xrint_exact; assumption|]. rewrite abs_exact. apply xrint_exact; [exact K | lia].
Qed.

(** ** Gradients *)

Lemma add32_comm : forall x y, add32 x y = add32 y x.
Proof.
  intros [sx|sx| |sx mx ex] [sy|sy| |sy my ey]; unfold add32; cbn [SFadd]; try reflexivity.
  - destruct sx, sy; reflexivity.
  - destruct sx, sy; reflexivity.
  - rewrite (Z.min_comm ex ey). rewrite Z.add_comm. reflexivity.
Qed.
Lemma square_opp : forall v, mul32 (of32 (- v) 0) (of32 (- v) 0) = mul32 (of32 v 0) (of32 v 0).
Proof.
  assert (A : forall p l e, binary_round_aux 24 128 true (Z.pos p) e l = SFopp (binary_round_aux 24 128 false (Z.pos p) e l)).
  { intros p l e. unfold binary_round_aux. destruct (shr_fexp 24 128 (Z.pos p) e l) as (r1 & e1).
    destruct (shr_fexp 24 128 _ e1 loc_Exact) as (r2 & e2). destruct (shr_m r2); try reflexivity. destruct (e2 <=? 128 - 24); reflexivity. }
  assert (R : forall p, binary_round 24 128 true p 0 = SFopp (binary_round 24 128 false p 0)).
  { intros p. unfold binary_round. destruct (shl_align p 0 _) as (mz & ez). apply A. }
  assert (S : forall x, mul32 (SFopp x) (SFopp x) = mul32 x x).
  { intros [s|s| |s m e]; unfold mul32; cbn [SFopp SFmul]; try reflexivity; destruct s; reflexivity. }
  intros [|p|p]; [reflexivity| |]; unfold of32; cbn [Z.opp binary_normalize]; rewrite R; [apply S | symmetry; apply S].
Qed.

(** The length of a gradient, scaled and rounded. *)
Definition gradLen (k : Z) (g : gparams) (gx gy : Z) : outcome Z :=
  let fx := of32 gx 0 in let fy := of32 gy 0 in
  xrint k (mul32 (SFsqrt 24 128 (add32 (mul32 fx fx) (mul32 fy fy))) (g_scale g)).

Lemma gradLen_sym : forall k g gx gy, gradLen k g gx gy = gradLen k g gy gx /\
  gradLen k g (- gx) gy = gradLen k g gx gy /\ gradLen k g gx (- gy) = gradLen k g gx gy.
Proof.
  intros k g gx gy. unfold gradLen. split; [rewrite add32_comm; reflexivity|]. split; rewrite square_opp; reflexivity.
Qed.

Definition nonneg (x : fl) : Prop := match x with S754_zero _ => True | S754_finite s _ _ => s = false | S754_infinity s => s = false | S754_nan => True end.
Lemma mul_same_nonneg : forall x, nonneg (mul32 x x).
Proof.
  assert (A : forall m e l, nonneg (binary_round_aux 24 128 false m e l)).
  { intros m e l. unfold binary_round_aux. destruct (shr_fexp 24 128 m e l) as (r1 & e1). destruct (shr_fexp 24 128 _ e1 loc_Exact) as (r2 & e2).
    destruct (shr_m r2); try exact I. destruct (e2 <=? 128 - 24); reflexivity. }
  intros [s|s| |s m e]; unfold mul32; cbn [SFmul]; try exact I; rewrite ?xorb_nilpotent; [reflexivity | apply A].
Qed.
Lemma add_nonneg : forall x y, nonneg x -> nonneg y -> nonneg (add32 x y).
Proof.
  assert (A : forall m e l, nonneg (binary_round_aux 24 128 false m e l)).
  { intros m e l. unfold binary_round_aux. destruct (shr_fexp 24 128 m e l) as (r1 & e1). destruct (shr_fexp 24 128 _ e1 loc_Exact) as (r2 & e2).
    destruct (shr_m r2); try exact I. destruct (e2 <=? 128 - 24); reflexivity. }
  intros [sx|sx| |sx mx ex] [sy|sy| |sy my ey] X Y; unfold add32; cbn [SFadd]; try exact I; try assumption.
  - destruct (Bool.eqb sx sy); exact I.
  - destruct (Bool.eqb sx sy); [assumption | exact I].
  - cbn [nonneg] in X, Y. subst. cbn [cond_Zopp]. set (a := fst (shl_align mx ex _)). set (b := fst (shl_align my ey _)).
    change (Z.pos a + Z.pos b) with (Z.pos (a + b)). cbn [binary_normalize]. unfold binary_round. destruct (shl_align (a + b) _ _) as (mz & ez). apply A.
Qed.

Lemma gradLen_total : forall k g gx gy, smallk k -> isFin (g_scale g) = true -> Z.abs gx < 2 ^ 24 -> Z.abs gy < 2 ^ 24 ->
  exists v, gradLen k g gx gy = Ok v /\ 0 <= v < 256 ^ k.
Proof.
  intros k g gx gy K S X Y. unfold gradLen. cbv zeta. apply xrint_total; [exact K|].
  pose proof (of32_exp gx 24 0 ltac:(lia) X ltac:(lia) ltac:(lia) ltac:(lia)) as EX.
  pose proof (of32_exp gy 24 0 ltac:(lia) Y ltac:(lia) ltac:(lia) ltac:(lia)) as EY.
  assert (PM : forall x, expLe 24 (0 + 1) x -> expLe 24 (26 + 1) (mul32 x x)).
  { intros x H. unfold mul32. apply (mul_exp 24 128 ltac:(lia) x x 1 1 26); auto; unfold emin, SpecFloat.emin; lia. }
  assert (A : expLe 24 (28 + 1) (add32 (mul32 (of32 gx 0) (of32 gx 0)) (mul32 (of32 gy 0) (of32 gy 0)))).
  { unfold add32. apply (add_exp 24 128 ltac:(lia) ltac:(lia) _ _ 27 28); [apply PM; exact EX | apply PM; exact EY | lia | unfold emin, SpecFloat.emin; lia | lia]. }
  pose proof (add_nonneg _ _ (mul_same_nonneg (of32 gx 0)) (mul_same_nonneg (of32 gy 0))) as NN.
  set (sum := add32 _ _) in *.
  assert (Q : expLe 24 (40 + 1) (SFsqrt 24 128 sum)).
  { apply (sqrt_exp 24 128 ltac:(lia) sum 29 40); [exact A | | lia | lia | lia | unfold emin, SpecFloat.emin; lia | lia].
    destruct sum; try exact I. exact NN. }
  apply mul_short; [lia | apply (expLe_fin 24 41); exact Q | exact S].
Qed.

Lemma gradLen_flat : forall k g, smallk k -> isFin (g_scale g) = true -> gradLen k g 0 0 = Ok 0.
Proof.
  intros k g K S. unfold gradLen. change (of32 0 0) with (S754_zero false). unfold mul32 at 2 3. cbn [SFmul xorb]. unfold add32. cbn [SFadd Bool.eqb SFsqrt].
  destruct (g_scale g) as [s|s| |s m e]; try discriminate; unfold mul32; cbn [SFmul xorb]; destruct K as [->| ->]; destruct s; reflexivity.
Qed.

Lemma gradientOp_spec : forall (sobel : bool) k g l, smallk k -> isFin (g_scale g) = true -> zlength l = 9 -> samples k l ->
  let c := if sobel then 2 else 1 in
  gradientOp sobel k g l = gradLen k g (gradV c l) (gradH c l) /\ Z.abs (gradV c l) < 2 ^ 24 /\ Z.abs (gradH c l) < 2 ^ 24.
Proof.
  intros sobel k g l K S L SM. pose proof (smallk_pow k K) as PK. nine_of L.
  unfold samples in SM. repeat match goal with H : Forall _ (_ :: _) |- _ => apply Forall_cons_iff in H; destruct H end.
  cbv zeta. unfold gradV, gradH, at3.
  change (Z.to_nat (3 * (-1 + 1) + (-1 + 1))) with 0%nat. change (Z.to_nat (3 * (-1 + 1) + (0 + 1))) with 1%nat. change (Z.to_nat (3 * (-1 + 1) + (1 + 1))) with 2%nat.
  change (Z.to_nat (3 * (0 + 1) + (-1 + 1))) with 3%nat. change (Z.to_nat (3 * (0 + 1) + (1 + 1))) with 5%nat.
  change (Z.to_nat (3 * (1 + 1) + (-1 + 1))) with 6%nat. change (Z.to_nat (3 * (1 + 1) + (0 + 1))) with 7%nat. change (Z.to_nat (3 * (1 + 1) + (1 + 1))) with 8%nat.
  cbn [nth]. set (c := if sobel then 2 else 1). assert (C : 1 <= c <= 2) by (subst c; destruct sobel; lia).
  assert (B1 : Z.abs (a20 + c * a21 + a22 - (a00 + c * a01 + a02)) < 2 ^ 24) by (clear - C PK H H0 H1 H2 H3 H4 H5 H6 H7; nia).
  assert (B2 : Z.abs (a02 + c * a12 + a22 - (a00 + c * a10 + a20)) < 2 ^ 24) by (clear - C PK H H0 H1 H2 H3 H4 H5 H6 H7; nia).
  split; [|split; assumption]. unfold gradientOp. fold c. unfold gradLen.
  replace (a20 + c * a21 + a22 - a00 - c * a01 - a02) with (a20 + c * a21 + a22 - (a00 + c * a01 + a02)) by ring.
  replace (a02 + c * a12 + a22 - a00 - c * a10 - a20) with (a02 + c * a12 + a22 - (a00 + c * a10 + a20)) by ring.
  rewrite chk32_ok by lia. unfold obind at 1. rewrite chk32_ok by lia. unfold obind at 1. reflexivity.
Qed.
