(** Conversion of audio samples: dither, floats, round trips and frames. *)
From Coq Require Import ZArith QArith Lqa List Bool Lia.
From Coq Require Import SpecFloat.
From Verif Require Import Common AudioSpec Audio AudioLemmas Soft SoftLemmas SoftBounds SoftRound SoftNum SoftErr SoftAdd SoftVal ResampleSpec ResampleLemmas ConvertSpec Convert ConvertLemmas.
Import ListNotations.
Open Scope Z_scope.

(** *** Dither *)
Lemma sub_opp : forall x y, sub64 x y = add64 x (SFopp y).
Proof.
  intros [s|s| |s m e] [t|t| |t m' e']; unfold sub64, add64; cbn [SFsub SFadd SFopp]; try reflexivity. cbv zeta. f_equal. destruct t; cbn [negb cond_Zopp]; lia.
Qed.
Lemma within_opp : forall a b x, within a b x -> within a b (SFopp x).
Proof. intros a b [s|s| |s m e] W; exact W. Qed.
Lemma unit_val : forall n, 0 <= n < 2 ^ 32 -> let u := mul64 (of64 n 0) (of64 1 (-32)) in norm u /\ within (-32) 1 u /\ V u = n * 2 ^ (sc - 32).
Proof.
  intros n R u. assert (SC : sc = 1074) by reflexivity. destruct (of64_val n 0) as (N & E); [change (2 ^ 53) with 9007199254740992; change (2 ^ 32) with 4294967296 in R; lia|lia|]. change (0 + sc) with sc in E.
  pose proof (within_int _ n 32 N E ltac:(lia) ltac:(lia)) as W. destruct (mul_pow2 _ (-32) 0 (32 + 1) N W ltac:(lia) ltac:(lia) ltac:(lia)) as (N1 & W1 & V1). fold u in N1, W1, V1. split; [exact N1|]. split; [exact W1|].
  specialize (V1 32 ltac:(lia) ltac:(lia)). rewrite E in V1. change (32 + -32) with 0 in V1. apply Z.mul_reg_r with (2 ^ 32); [lia|]. rewrite V1. assert (P : 2 ^ sc = 2 ^ (sc - 32) * 2 ^ 32) by (rewrite <- Z.pow_add_r by lia; f_equal; lia). rewrite P, Z.pow_0_r. ring.
Qed.
Lemma diff_val : forall x y a b, norm x -> norm y -> within (-32) 1 x -> within (-32) 1 y -> V x = a * 2 ^ (sc - 32) -> V y = b * 2 ^ (sc - 32) -> Z.abs (a - b) < 2 ^ 53 ->
  norm (sub64 x y) /\ within (-84) 3 (sub64 x y) /\ V (sub64 x y) = (a - b) * 2 ^ (sc - 32).
Proof.
  intros x y a b Nx Ny Wx Wy Ex Ey B. assert (SC : sc = 1074) by reflexivity. rewrite sub_opp. destruct (opp_val y Ny) as (N1 & V1). destruct (add_val x (SFopp y) (-32) 1 Nx N1 Wx (within_opp _ _ _ Wy) ltac:(lia) ltac:(lia)) as (N2 & _ & V2 & W2). split; [exact N2|]. split; [exact W2|].
  rewrite V2; [rewrite V1, Ex, Ey; ring|]. exists (a - b), (sc - 32). split; [lia|]. split; [exact B|]. rewrite V1, Ex, Ey. ring.
Qed.
Theorem dither_val : forall dt pos ch, exists t, ditherRange dt t /\ norm (ditherValue dt pos ch) /\ within (-84) 3 (ditherValue dt pos ch) /\ V (ditherValue dt pos ch) = t * 2 ^ (sc - 32) /\
  (dt = DRect -> t = ditherHash pos ch mod 2 ^ 32 - 2 ^ 31) /\ (dt = DTri -> t = ditherHash pos ch mod 2 ^ 32 - (ditherHash pos ch / 2 ^ 32) mod 2 ^ 32).
Proof.
  intros dt pos ch. destruct dt.
  - exists 0. cbn [ditherRange ditherValue norm within V]. split; [reflexivity|]. split; [exact I|]. split; [exact I|]. split; [reflexivity|]. split; discriminate.
  - cbn [ditherValue]. change (div64 (of64 1 0) (of64 4294967296 0)) with (of64 1 (-32)). set (h := ditherHash pos ch). unfold wrapu32. change 4294967296 with (2 ^ 32). pose proof (Z.mod_pos_bound h (2 ^ 32) ltac:(lia)) as B. destruct (unit_val (h mod 2 ^ 32) B) as (N & W & E).
    exists (h mod 2 ^ 32 - 2 ^ 31). split; [cbn [ditherRange]; lia|].
    destruct (of64_val 1 (-1) ltac:(lia) ltac:(lia)) as (N1 & E1).
    assert (E2 : V (of64 1 (-1)) = 2 ^ 31 * 2 ^ (sc - 32)) by (rewrite E1, Z.mul_1_l, <- Z.pow_add_r by (unfold sc; lia); f_equal).
    destruct (diff_val _ (of64 1 (-1)) _ _ N N1 W ltac:(rewrite one_pow by lia; cbn [within]; lia) E E2 ltac:(change (2 ^ 53) with 9007199254740992; lia)) as (N3 & W3 & V3). split; [exact N3|]. split; [exact W3|]. split; [exact V3|]. split; [reflexivity|discriminate].
  - cbn [ditherValue]. change (div64 (of64 1 0) (of64 4294967296 0)) with (of64 1 (-32)). set (h := ditherHash pos ch). unfold wrapu32. change 4294967296 with (2 ^ 32). rewrite Z.shiftr_div_pow2 by lia. pose proof (Z.mod_pos_bound h (2 ^ 32) ltac:(lia)) as B. destruct (unit_val (h mod 2 ^ 32) B) as (N & W & E).
    pose proof (Z.mod_pos_bound (h / 2 ^ 32) (2 ^ 32) ltac:(lia)) as B1. destruct (unit_val ((h / 2 ^ 32) mod 2 ^ 32) B1) as (N1 & W1 & E1).
    exists (h mod 2 ^ 32 - (h / 2 ^ 32) mod 2 ^ 32). split; [cbn [ditherRange]; lia|].
    destruct (diff_val _ _ _ _ N N1 W W1 E E1 ltac:(change (2 ^ 53) with 9007199254740992; lia)) as (N3 & W3 & V3). split; [exact N3|]. split; [exact W3|]. split; [exact V3|]. split; [discriminate|reflexivity].
Qed.
Theorem dithered_step : forall f g dt pos ch x, fmtOk f -> fmtOk g -> f_float g = false -> sampleOk f x -> finite x ->
  exists t k, ditherRange (if dithered f g then dt else DNone) t /\ ditheredStep f g x t k /\ convertSample f g dt pos ch x = Ok (storedStep g k).
Proof.
  intros f g dt pos ch x F G GF O FI. unfold convertSample. rewrite GF. cbv zeta. destruct (scaled_val f g x F G O FI) as (N & W & E). cbv zeta in N, W, E. set (X := mul64 (asDouble x) _) in *. clearbody X.
  unfold resolveDither. rewrite dithered_is. set (dt' := if dithered f g then dt else DNone). destruct (dither_val dt' pos ch) as (t & TR & ND & WD & VD & _). set (dv := ditherValue dt' pos ch) in *. clearbody dv.
  assert (WD' : within (-300) 300 dv) by (destruct dv; try exact I; cbn [within] in *; lia). destruct (add_val X dv (-300) 300 N ND W WD' ltac:(lia) ltac:(lia)) as (N1 & CL & _ & _).
  exists t, (rnd (V (add64 X dv)) (2 ^ sc)). split; [exact TR|]. split; [|apply quantize_val; assumption].
  unfold gridExp in E. rewrite GF in E. pose proof (denOf_pos f x F) as DP. unfold ditheredStep. cbv zeta. set (n := numOf x * 2 ^ (f_bits g - 1)) in *. set (d := denOf f x) in *. set (S := V X + V dv) in *.
  pose proof (rnd_near (V (add64 X dv)) (2 ^ sc) sc_pos) as RN. set (k := rnd (V (add64 X dv)) (2 ^ sc)) in *. unfold close in CL. set (r := V (add64 X dv)) in *. clearbody r k. pose proof sc_pos as SP.
  assert (SD : S * (d * 2 ^ 32) = (n * 2 ^ 32 + t * d) * 2 ^ sc). { assert (P : 2 ^ sc = 2 ^ (sc - 32) * 2 ^ 32) by (rewrite <- Z.pow_add_r by (unfold sc; lia); f_equal; unfold sc; lia). unfold S. rewrite VD. replace ((V X + t * 2 ^ (sc - 32)) * (d * 2 ^ 32)) with (V X * d * 2 ^ 32 + t * d * (2 ^ (sc - 32) * 2 ^ 32)) by ring. rewrite E, <- P. ring. }
  clearbody n d S. generalize dependent (n * 2 ^ 32 + t * d). intros ex SD. set (D := d * 2 ^ 32) in *. assert (D0 : 0 < D) by (unfold D; lia). set (u := 2 ^ sc) in *. clearbody D u.
  assert (H1 : 2 ^ 54 * Z.abs (k * u - S) <= 2 ^ 53 * u + 2 * Z.abs S). { assert (Z.abs (k * u - S) <= Z.abs (k * u - r) + Z.abs (r - S)) by lia. change (2 ^ 54) with (2 * 2 ^ 53). lia. }
  apply Z.mul_le_mono_pos_r with u; [lia|].
  replace (2 ^ 54 * Z.abs (k * D - ex) * u) with (2 ^ 54 * (Z.abs (k * D - ex) * Z.abs u)) by (rewrite (Z.abs_eq u) by lia; ring). rewrite <- Z.abs_mul, Z.mul_sub_distr_r, <- SD.
  replace ((2 ^ 53 * D + 2 * Z.abs ex) * u) with (2 ^ 53 * u * D + 2 * (Z.abs ex * Z.abs u)) by (rewrite (Z.abs_eq u) by lia; ring). rewrite <- Z.abs_mul, <- SD.
  replace (k * D * u - S * D) with ((k * u - S) * D) by ring. rewrite !Z.abs_mul, (Z.abs_eq D) by lia.
  apply Z.mul_le_mono_nonneg_r with (p := D) in H1; [|lia]. lia.
Qed.
Theorem infinite_limited : forall f g dt pos ch s, fmtOk f -> fmtOk g -> f_float g = false ->
  convertSample f g dt pos ch (Flt (S754_infinity s)) = Ok (Int ((if s then - 2 ^ (f_bits g - 1) else 2 ^ (f_bits g - 1) - 1) * 2 ^ (container g - f_bits g)), true).
Proof. intros. apply infinite_step; try assumption. intros d. destruct (dither_val d pos ch) as (t & _ & N & _). exact N. Qed.
Theorem convert_defined : forall f g dt pos ch x, fmtOk f -> fmtOk g -> sampleOk f x -> f_float g = true \/ notNan x -> exists r, convertSample f g dt pos ch x = Ok r.
Proof.
  intros f g dt pos ch x F G O N. destruct (f_float g) eqn:GF.
  - unfold convertSample. rewrite GF. eexists. reflexivity.
  - destruct N as [N|N]; [discriminate|]. destruct x as [v|[s|s| |s m e]]; try discriminate N.
    + destruct (dithered_step f g dt pos ch (Int v) F G GF O I) as (t & k & _ & _ & E). eexists. exact E.
    + destruct (dithered_step f g dt pos ch (Flt (S754_zero s)) F G GF O eq_refl) as (t & k & _ & _ & E). eexists. exact E.
    + eexists. apply infinite_limited; assumption.
    + destruct (dithered_step f g dt pos ch (Flt (S754_finite s m e)) F G GF O eq_refl) as (t & k & _ & _ & E). eexists. exact E.
Qed.
Theorem nan_undefined : forall f g dt pos ch, fmtOk f -> fmtOk g -> f_float g = false -> convertSample f g dt pos ch (Flt S754_nan) = UB.
Proof.
  intros f g dt pos ch F G GF. unfold convertSample. rewrite GF. cbv zeta. destruct (mul_is f g F G) as (M & ME). rewrite M, one_pow by lia. cbn [asDouble to64]. unfold mul64 at 1. cbn [SFmul]. unfold add64. cbn [SFadd]. unfold quantize. cbn [round64]. unfold clamp64, SFltb. cbn [SFcompare].
  destruct (SFcompare (of64 (2 ^ (f_bits g - 1) - 1) 0) S754_nan) eqn:C; [destruct (of64 (2 ^ (f_bits g - 1) - 1) 0); discriminate C|].
  destruct (pad_bound g G) as (B1 & B2 & B3 & B4). unfold formatOutputShift, containerBits. rewrite GF, one_pow by lia. reflexivity.
Qed.

(** The hash gives different positions different values. *)
Lemma xorshift_inj : forall k x y, 0 < k -> 0 <= x -> 0 <= y -> Z.lxor x (Z.shiftr x k) = Z.lxor y (Z.shiftr y k) -> x = y.
Proof.
  intros k x y K X Y E. set (z := Z.lxor x y). assert (Z0 : 0 <= z) by (apply Z.lxor_nonneg; tauto).
  assert (ZE : z = Z.shiftr z k). { unfold z. rewrite Z.shiftr_lxor. apply Z.lxor_eq. replace (Z.lxor (Z.lxor x y) (Z.lxor (Z.shiftr x k) (Z.shiftr y k))) with (Z.lxor (Z.lxor x (Z.shiftr x k)) (Z.lxor y (Z.shiftr y k))).
    - rewrite E. apply Z.lxor_nilpotent.
    - rewrite !Z.lxor_assoc. f_equal. rewrite <- !Z.lxor_assoc. f_equal. apply Z.lxor_comm. }
  rewrite Z.shiftr_div_pow2 in ZE by lia. destruct (Z.eq_dec z 0) as [Q|Q]; [apply Z.lxor_eq; exact Q|]. exfalso.
  assert (P : 1 < 2 ^ k) by (apply Z.pow_gt_1; lia). pose proof (Z.div_lt z (2 ^ k) ltac:(lia) P). lia.
Qed.
Lemma mulodd_inj : forall c c' x y, wrapu64 (c * c') = 1 -> 0 <= x < 2 ^ 64 -> 0 <= y < 2 ^ 64 -> wrapu64 (x * c) = wrapu64 (y * c) -> x = y.
Proof.
  intros c c' x y I X Y E. unfold wrapu64 in *. change 18446744073709551616 with (2 ^ 64) in *. set (M := 2 ^ 64) in *. assert (MP : 0 < M) by (unfold M; lia). clearbody M.
  assert (T : forall z, 0 <= z < M -> ((z * c) mod M * c') mod M = z). { intros z R. rewrite Z.mul_mod_idemp_l by lia. rewrite <- Z.mul_assoc, <- Z.mul_mod_idemp_r, I, Z.mul_1_r by lia. apply Z.mod_small; exact R. }
  rewrite <- (T x X), <- (T y Y), E. reflexivity.
Qed.
Lemma lxor_64 : forall k x, 0 <= k -> 0 <= x < 2 ^ 64 -> 0 <= Z.lxor x (Z.shiftr x k) < 2 ^ 64.
Proof.
  intros k x K (X0 & X1). assert (S0 : 0 <= Z.shiftr x k) by (apply Z.shiftr_nonneg; exact X0). split; [apply Z.lxor_nonneg; tauto|].
  assert (SL : Z.shiftr x k <= x). { rewrite Z.shiftr_div_pow2 by exact K. pose proof (Z.pow_pos_nonneg 2 k ltac:(lia) K). apply Z.div_le_upper_bound; [lia|]. assert (1 * x <= 2 ^ k * x) by (apply Z.mul_le_mono_nonneg_r; lia). lia. }
  destruct (Z.eq_dec (Z.lxor x (Z.shiftr x k)) 0) as [->|N]; [lia|]. assert (P : 0 <= Z.lxor x (Z.shiftr x k)) by (apply Z.lxor_nonneg; tauto).
  assert (LG : forall z, 0 <= z < 2 ^ 64 -> Z.log2 z < 64). { intros z (A & B). destruct (Z.eq_dec z 0) as [->|]; [reflexivity|]. apply Z.log2_lt_pow2; lia. }
  apply Z.log2_lt_pow2; [lia|]. apply Z.le_lt_trans with (Z.max (Z.log2 x) (Z.log2 (Z.shiftr x k))); [apply Z.log2_lxor; assumption|]. apply Z.max_lub_lt; apply LG; lia.
Qed.
Lemma wrapu64_range : forall z, 0 <= wrapu64 z < 2 ^ 64.
Proof. intros z. unfold wrapu64. apply Z.mod_pos_bound. lia. Qed.
Lemma mix_inj : forall x y, 0 <= x < 2 ^ 64 -> 0 <= y < 2 ^ 64 -> ditherMix x = ditherMix y -> x = y.
Proof.
  intros x y X Y E. unfold ditherMix in E. cbv zeta in E. apply xorshift_inj in E; try lia; try apply wrapu64_range.
  apply (mulodd_inj _ 0x319642B2D24D8EC3) in E; [|reflexivity|apply lxor_64; [lia|apply wrapu64_range]|apply lxor_64; [lia|apply wrapu64_range]].
  apply xorshift_inj in E; try lia; try apply wrapu64_range.
  apply (mulodd_inj _ 0x96DE1B173F119089) in E; [|reflexivity|apply lxor_64; [lia|exact X]|apply lxor_64; [lia|exact Y]].
  apply xorshift_inj in E; lia.
Qed.
Theorem hash_distinct : forall ch a b, 0 <= a < 2 ^ 63 -> 0 <= b < 2 ^ 63 -> ditherHash a ch = ditherHash b ch -> a = b.
Proof.
  intros ch a b A B E. unfold ditherHash in E. apply mix_inj in E; try apply wrapu64_range. generalize dependent (wrapu64 (wrapu64 (wrapu64 ch + 1) * ditherChannelStride)). intros s E.
  assert (WA : wrapu64 a = a) by (unfold wrapu64; apply Z.mod_small; lia). assert (WB : wrapu64 b = b) by (unfold wrapu64; apply Z.mod_small; lia). rewrite WA, WB in E.
  unfold wrapu64 in E. change 18446744073709551616 with (2 ^ 64) in E. assert (D : ((a + s) - (b + s)) mod 2 ^ 64 = 0) by (rewrite Zminus_mod, E, Z.sub_diag; reflexivity). replace (a + s - (b + s)) with (a - b) in D by lia.
  apply Z.mod_divide in D; [|lia]. destruct D as (q & Q). assert (q = 0) by lia. subst. lia.
Qed.
