(** Half precision conversions: proofs. *)
From Coq Require Import ZArith Lia Bool.
From Coq Require Import SpecFloat.
From Verif Require Import Common Soft SoftLemmas SoftBounds SoftRound SoftNum FormatLemmas HalfSpec Half.
Open Scope Z_scope.

(** *** Bits *)

Lemma testbit_top : forall n b, 0 <= n -> 0 <= b < 2 ^ (n + 1) -> Z.testbit b n = (2 ^ n <=? b).
Proof.
  intros n b N B. rewrite Z.testbit_eqb by lia. rewrite Z.pow_add_r in B by lia. change (2 ^ 1) with 2 in B.
  assert (P : 0 < 2 ^ n) by (apply Z.pow_pos_nonneg; lia).
  destruct (Z.leb_spec (2 ^ n) b).
  - replace (b / 2 ^ n) with 1; [reflexivity|]. apply Z.div_unique with (b - 2 ^ n); lia.
  - rewrite Z.div_small by lia. reflexivity.
Qed.

Lemma testbit_high : forall n b i, 0 <= n -> 0 <= b < 2 ^ n -> n <= i -> Z.testbit b i = false.
Proof.
  intros n b i N B I. destruct (Z.eq_dec b 0) as [->|NZ]; [apply Z.bits_0|]. apply Z.bits_above_log2; [lia|].
  apply Z.lt_le_trans with n; [|lia]. apply Z.log2_lt_pow2; lia.
Qed.

Lemma land_top : forall n b, 0 <= n -> 0 <= b < 2 ^ (n + 1) -> Z.land b (2 ^ n) = if 2 ^ n <=? b then 2 ^ n else 0.
Proof.
  intros n b N B. apply Z.bits_inj'. intros i I. rewrite Z.land_spec, Z.pow2_bits_eqb by lia.
  destruct (Z.eqb_spec n i) as [->|NE].
  - rewrite (testbit_top i b I B), andb_true_r. destruct (2 ^ i <=? b); [symmetry; apply Z.pow2_bits_true; lia | symmetry; apply Z.bits_0].
  - rewrite andb_false_r. destruct (2 ^ n <=? b); [symmetry; apply Z.pow2_bits_false; lia | symmetry; apply Z.bits_0].
Qed.

Lemma lxor_top : forall n b, 0 <= n -> 0 <= b < 2 ^ (n + 1) -> Z.lxor b (Z.land b (2 ^ n)) = b mod 2 ^ n.
Proof.
  intros n b N B. apply Z.bits_inj'. intros i I. rewrite Z.lxor_spec, Z.land_spec, Z.pow2_bits_eqb by lia.
  destruct (Z.eqb_spec n i) as [->|NE].
  - rewrite Z.mod_pow2_bits_high by lia. rewrite andb_true_r. apply xorb_nilpotent.
  - rewrite andb_false_r, xorb_false_r. destruct (Z.lt_ge_cases i n).
    + rewrite Z.mod_pow2_bits_low by lia. reflexivity.
    + rewrite Z.mod_pow2_bits_high by lia. apply (testbit_high (n + 1)); lia.
Qed.

Lemma land_ge12 : forall f, 0 <= f < 2 ^ 32 -> Z.land f 0xFFFFF000 = f - f mod 2 ^ 12.
Proof.
  intros f F. change 0xFFFFF000 with (Z.shiftl (Z.ones 20) 12).
  assert (E : f - f mod 2 ^ 12 = Z.shiftl (Z.shiftr f 12) 12).
  { rewrite Z.shiftl_mul_pow2, Z.shiftr_div_pow2 by lia. pose proof (Z.div_mod f (2 ^ 12) ltac:(lia)). lia. }
  rewrite E. apply Z.bits_inj'. intros i I. rewrite Z.land_spec, !Z.shiftl_spec by lia.
  destruct (Z.lt_ge_cases i 12).
  - rewrite !(Z.testbit_neg_r _ (i - 12)) by lia. apply andb_false_r.
  - rewrite Z.shiftr_spec by lia. replace (i - 12 + 12) with i by lia.
    destruct (Z.lt_ge_cases i 32).
    + rewrite Z.ones_spec_low by lia. apply andb_true_r.
    + rewrite (testbit_high 32 f i) by lia. reflexivity.
Qed.

(** The exponent field of a shifted half. *)
Lemma land_exp : forall a, 0 <= a < 2 ^ 15 -> Z.land (Z.shiftl a 13) (Z.shiftl 0x7C00 13) = (a / 2 ^ 10) * 2 ^ 23.
Proof.
  intros a A. rewrite <- Z.shiftl_land. change 0x7C00 with (Z.shiftl (Z.ones 5) 10).
  assert (E : Z.land a (Z.shiftl (Z.ones 5) 10) = Z.shiftl (Z.shiftr a 10) 10).
  { apply Z.bits_inj'. intros i I. rewrite Z.land_spec, !Z.shiftl_spec by lia. destruct (Z.lt_ge_cases i 10).
    - rewrite !(Z.testbit_neg_r _ (i - 10)) by lia. apply andb_false_r.
    - rewrite Z.shiftr_spec by lia. replace (i - 10 + 10) with i by lia. destruct (Z.lt_ge_cases i 15).
      + rewrite Z.ones_spec_low by lia. apply andb_true_r.
      + rewrite (testbit_high 15 a i) by lia. reflexivity. }
  rewrite E, Z.shiftl_shiftl, Z.shiftl_mul_pow2, Z.shiftr_div_pow2 by lia. reflexivity.
Qed.

(** *** Magnitudes *)

Section Mag.
Variable w : Z.
Hypothesis W : 0 <= w.

Lemma mag_cases : forall b, 0 <= b -> exists E M, b = E * 2 ^ w + M /\ 0 <= E /\ 0 <= M < 2 ^ w /\
  magnitude w b = if E =? 0 then M else (2 ^ w + M) * 2 ^ (E - 1).
Proof using W.
  intros b B. assert (P : 0 < 2 ^ w) by (apply Z.pow_pos_nonneg; lia). exists (b / 2 ^ w), (b mod 2 ^ w).
  pose proof (Z.div_mod b (2 ^ w) ltac:(lia)). pose proof (Z.mod_pos_bound b (2 ^ w) P). pose proof (Z.div_pos b (2 ^ w) B P).
  repeat split; try lia.
Qed.

Lemma mag_eq : forall E M, 0 <= E -> 0 <= M < 2 ^ w -> magnitude w (E * 2 ^ w + M) = if E =? 0 then M else (2 ^ w + M) * 2 ^ (E - 1).
Proof using W.
  intros E M HE HM. unfold magnitude.
  assert (D : (E * 2 ^ w + M) / 2 ^ w = E) by (symmetry; apply Z.div_unique with M; lia).
  assert (R : (E * 2 ^ w + M) mod 2 ^ w = M) by (symmetry; apply Z.mod_unique with E; lia).
  rewrite D, R. reflexivity.
Qed.

(** One step up. *)
Lemma mag_succ : forall b, 0 <= b -> magnitude w (b + 1) = magnitude w b + 2 ^ (Z.max 1 (b / 2 ^ w) - 1).
Proof using W.
  intros b B. assert (P : 0 < 2 ^ w) by (apply Z.pow_pos_nonneg; lia).
  destruct (mag_cases b B) as (E & M & EQ & E0 & MB & V). rewrite V.
  assert (D : b / 2 ^ w = E) by (symmetry; apply Z.div_unique with M; lia). rewrite D.
  destruct (Z.eq_dec (M + 1) (2 ^ w)) as [T|T].
  - replace (b + 1) with ((E + 1) * 2 ^ w + 0) by nia. rewrite mag_eq by lia.
    destruct (Z.eqb_spec (E + 1) 0); [lia|]. replace (E + 1 - 1) with E by lia.
    destruct (Z.eqb_spec E 0) as [->|NE].
    + change (Z.max 1 0 - 1) with 0. rewrite Z.pow_0_r. lia.
    + rewrite Z.max_r by lia. replace E with (1 + (E - 1)) at 1 by lia. rewrite Z.pow_add_r by lia. change (2 ^ 1) with 2. nia.
  - replace (b + 1) with (E * 2 ^ w + (M + 1)) by lia. rewrite mag_eq by lia.
    destruct (Z.eqb_spec E 0) as [->|NE].
    + change (Z.max 1 0 - 1) with 0. rewrite Z.pow_0_r. lia.
    + rewrite Z.max_r by lia. lia.
Qed.

Lemma mag_lt : forall a b, 0 <= a -> a < b -> magnitude w a < magnitude w b.
Proof using W.
  intros a b A L. replace b with (a + 1 + (b - a - 1)) by lia. assert (K : 0 <= b - a - 1) by lia. revert K. generalize (b - a - 1) as k.
  intros k K. pattern k. apply natlike_ind; [| |exact K].
  - rewrite Z.add_0_r, mag_succ by lia. assert (0 < 2 ^ (Z.max 1 (a / 2 ^ w) - 1)) by (apply Z.pow_pos_nonneg; lia). lia.
  - intros x X IH. replace (a + 1 + Z.succ x) with (a + 1 + x + 1) by lia. rewrite mag_succ by lia.
    assert (0 < 2 ^ (Z.max 1 ((a + 1 + x) / 2 ^ w) - 1)) by (apply Z.pow_pos_nonneg; lia). lia.
Qed.
Lemma mag_le : forall a b, 0 <= a -> a <= b -> magnitude w a <= magnitude w b.
Proof using W. intros a b A L. destruct (Z.eq_dec a b) as [->|]; [lia|]. pose proof (mag_lt a b A). lia. Qed.
Lemma mag_le_inv : forall a b, 0 <= a -> 0 <= b -> magnitude w a <= magnitude w b -> a <= b.
Proof using W. intros a b A B L. destruct (Z.le_gt_cases a b); [assumption|]. pose proof (mag_lt b a B). lia. Qed.
Lemma mag_nonneg : forall b, 0 <= b -> 0 <= magnitude w b.
Proof using W.
  intros b B. destruct (mag_cases b B) as (E & M & EQ & E0 & MB & V). rewrite V. destruct (Z.eqb_spec E 0); [lia|].
  apply Z.mul_nonneg_nonneg; [lia|]. apply Z.pow_nonneg; lia.
Qed.
End Mag.

(** A half shifted into the float position has the same number, 2^13 units larger. *)
Lemma mag_shift : forall a, 0 <= a -> magnitude 23 (a * 2 ^ 13) = magnitude 10 a * 2 ^ 13.
Proof.
  intros a A. destruct (mag_cases 10 ltac:(lia) a A) as (E & M & EQ & E0 & MB & V). rewrite V.
  replace (a * 2 ^ 13) with (E * 2 ^ 23 + M * 2 ^ 13) by lia. rewrite (mag_eq 23 ltac:(lia)) by lia.
  destruct (Z.eqb_spec E 0); [reflexivity|]. change (2 ^ 23) with (2 ^ 10 * 2 ^ 13). ring.
Qed.

(** Within a step of the halves the floats are evenly spaced. *)
Lemma mag_segment : forall k t, 0 <= k -> 0 <= t <= 2 ^ 13 ->
  magnitude 23 (k * 2 ^ 13 + t) = magnitude 23 (k * 2 ^ 13) + t * 2 ^ (Z.max 1 (k / 2 ^ 10) - 1).
Proof.
  intros k t K (T0 & T1). revert T1. pattern t. apply natlike_ind; [| |exact T0].
  - intros _. rewrite Z.add_0_r. lia.
  - intros x X IH T1. replace (k * 2 ^ 13 + Z.succ x) with (k * 2 ^ 13 + x + 1) by lia. rewrite (mag_succ 23 ltac:(lia)) by nia.
    rewrite IH by lia. assert (D : (k * 2 ^ 13 + x) / 2 ^ 23 = k / 2 ^ 10).
    { symmetry. apply Z.div_unique with ((k mod 2 ^ 10) * 2 ^ 13 + x).
      - left. pose proof (Z.mod_pos_bound k (2 ^ 10) ltac:(lia)). lia.
      - pose proof (Z.div_mod k (2 ^ 10) ltac:(lia)). change (2 ^ 23) with (2 ^ 10 * 2 ^ 13). lia. }
    rewrite D. lia.
Qed.

(** The middle between two halves. *)
Lemma mag_middle : forall k, 0 <= k -> 2 * magnitude 23 (k * 2 ^ 13 + 2 ^ 12) = (magnitude 10 k + magnitude 10 (k + 1)) * 2 ^ 13.
Proof.
  intros k K. rewrite Z.mul_add_distr_r, <- !mag_shift by lia. rewrite mag_segment by lia.
  replace ((k + 1) * 2 ^ 13) with (k * 2 ^ 13 + 2 ^ 13) by lia. rewrite (mag_segment k (2 ^ 13)) by lia. lia.
Qed.

(** *** The multiplication by 2^-112 *)

Lemma zdigits_pos : forall M n, 2 ^ n <= M < 2 ^ (n + 1) -> 0 <= n -> Zdigits2 M = n + 1.
Proof.
  intros M n (L & U) N. assert (0 < 2 ^ n) by (apply Z.pow_pos_nonneg; lia).
  pose proof (Zdigits2_le M (n + 1) ltac:(lia) ltac:(lia)). destruct (Zdigits2_bound M ltac:(lia)) as (A & B).
  destruct (Z.le_gt_cases (Zdigits2 M) n); [|lia]. pose proof (Z.pow_le_mono_r 2 (Zdigits2 M) n ltac:(lia) ltac:(lia)). lia.
Qed.

(** Results far below the smallest normal number. *)
Lemma round_tiny : forall M e k, 0 <= k <= 23 -> e < -149 -> 0 <= M < 2 ^ (k - 149 - e) ->
  match binary_round_aux 24 128 false M e loc_Exact with
  | S754_zero s => s = false
  | S754_finite s m' e' => s = false /\ e' = -149 /\ Z.pos m' <= 2 ^ k
  | _ => False
  end.
Proof.
  intros M e k K E (M0 & MB). unfold binary_round_aux.
  pose proof (Zdigits2_le M (k - 149 - e) ltac:(lia) ltac:(lia)) as DM.
  pose proof (shr_fexp_exp 24 128 M e loc_Exact) as X1. unfold SoftBounds.emin, SpecFloat.emin in X1.
  assert (S1 : shr_m (fst (shr_fexp 24 128 M e loc_Exact)) = M / 2 ^ (-149 - e)).
  { unfold shr_fexp. rewrite shr_div by (rewrite rec_of_loc; exact M0). rewrite rec_of_loc. f_equal. f_equal. unfold fexp, SpecFloat.emin. lia. }
  destruct (shr_fexp 24 128 M e loc_Exact) as (r1 & e1). cbn [fst snd] in *.
  assert (E1 : e1 = -149) by lia. rewrite E1.
  assert (B1 : 0 <= shr_m r1 < 2 ^ k).
  { rewrite S1. replace (k - 149 - e) with (k + (-149 - e)) in MB by lia. rewrite Z.pow_add_r in MB by lia.
    assert (P : 0 < 2 ^ (-149 - e)) by (apply Z.pow_pos_nonneg; lia). split; [apply Z.div_pos; lia | apply Z.div_lt_upper_bound; lia]. }
  pose proof (rne_nonneg (shr_m r1) (loc_of_shr_record r1) ltac:(lia)) as R0.
  pose proof (rne_up (shr_m r1) (loc_of_shr_record r1) ltac:(lia)) as R1.
  set (m1 := round_nearest_even (shr_m r1) (loc_of_shr_record r1)) in *. clearbody m1.
  assert (P24 : 2 ^ k < 2 ^ 24) by (apply Z.pow_lt_mono_r; lia).
  pose proof (Zdigits2_le m1 24 ltac:(lia) ltac:(lia)) as D1.
  unfold shr_fexp. assert (SH : fexp 24 128 (Zdigits2 m1 + -149) - -149 = 0) by (unfold fexp, SpecFloat.emin; lia). rewrite SH.
  cbn [shr shr_record_of_loc shr_m]. destruct m1 as [|p|p]; [reflexivity| |lia].
  change (-149 <=? 128 - 24) with true. cbn iota. repeat split; lia.
Qed.

Definition scaled (g : Z) : Z := toBits (mul32 (ofBits g) (ofBits (Z.shiftl 15 23))).

Lemma magic_is : ofBits (Z.shiftl 15 23) = S754_finite false (Z.to_pos (2 ^ 23)) (-135).
Proof. reflexivity. Qed.

Lemma ofBits_normal : forall E M, 1 <= E <= 254 -> 0 <= M < 2 ^ 23 -> ofBits (E * 2 ^ 23 + M) = S754_finite false (Z.to_pos (2 ^ 23 + M)) (E - 150).
Proof.
  intros E M HE HM. unfold ofBits.
  assert (D : (E * 2 ^ 23 + M) / 2 ^ 23 = E) by (symmetry; apply Z.div_unique with M; lia).
  assert (R : (E * 2 ^ 23 + M) mod 2 ^ 23 = M) by (symmetry; apply Z.mod_unique with E; lia).
  rewrite D, R. destruct (Z.eqb_spec E 255); [lia|]. destruct (Z.eqb_spec E 0); [lia|]. reflexivity.
Qed.

Lemma ofBits_sub : forall p, Z.pos p < 2 ^ 23 -> ofBits (Z.pos p) = S754_finite false p (-149).
Proof.
  intros p B. unfold ofBits. rewrite Z.div_small, Z.mod_small by lia. reflexivity.
Qed.

Lemma scaled_mul : forall m e, mul32 (S754_finite false m e) (ofBits (Z.shiftl 15 23)) =
  binary_round_aux 24 128 false (Z.pos m * 2 ^ 23) (e - 135) loc_Exact.
Proof. intros m e. rewrite magic_is. unfold mul32. cbn [SFmul xorb]. f_equal. Qed.

(** Normal results: the exponent moves. *)
Lemma scaled_normal : forall E M, 113 <= E <= 254 -> 0 <= M < 2 ^ 23 -> scaled (E * 2 ^ 23 + M) = E * 2 ^ 23 + M - 112 * 2 ^ 23.
Proof.
  intros E M HE HM. unfold scaled. rewrite ofBits_normal by lia. rewrite scaled_mul. rewrite Z2Pos.id by lia.
  assert (D : Zdigits2 ((2 ^ 23 + M) * 2 ^ 23) = 47) by (apply (zdigits_pos _ 46); lia).
  assert (SB : shiftBy 24 128 ((2 ^ 23 + M) * 2 ^ 23) (E - 150 - 135) = 23) by (unfold shiftBy; rewrite D; unfold SpecFloat.emin; lia).
  rewrite round_aux_exact; rewrite ?SB; [| lia | lia | apply Z.divide_mul_r, Z.divide_refl | lia].
  rewrite Z.div_mul by lia. unfold toBits. rewrite Z2Pos.id by lia. destruct (Z.ltb_spec (2 ^ 23 + M) (2 ^ 23)); lia.
Qed.

(** Subnormal results that are exact. *)
Lemma scaled_exact : forall E q, 101 <= E <= 112 -> 2 ^ 11 <= q < 2 ^ 12 -> 
  scaled (E * 2 ^ 23 + (q * 2 ^ 12 - 2 ^ 23)) = q * 2 ^ (E - 101).
Proof.
  intros E q HE HQ. unfold scaled. rewrite ofBits_normal by lia. rewrite scaled_mul. rewrite Z2Pos.id by lia.
  replace ((2 ^ 23 + (q * 2 ^ 12 - 2 ^ 23)) * 2 ^ 23) with (q * 2 ^ 35) by lia.
  assert (D : Zdigits2 (q * 2 ^ 35) = 47) by (apply (zdigits_pos _ 46); lia).
  assert (SB : shiftBy 24 128 (q * 2 ^ 35) (E - 150 - 135) = 136 - E) by (unfold shiftBy; rewrite D; unfold SpecFloat.emin; lia).
  assert (SP : q * 2 ^ 35 = q * 2 ^ (E - 101) * 2 ^ (136 - E)) by (rewrite <- Z.mul_assoc, <- Z.pow_add_r by lia; do 2 f_equal; lia).
  assert (P : 0 < 2 ^ (136 - E)) by (apply Z.pow_pos_nonneg; lia).
  assert (PE : 1 <= 2 ^ (E - 101) <= 2 ^ 11) by (split; [apply (Z.pow_le_mono_r 2 0); lia | apply Z.pow_le_mono_r; lia]).
  rewrite round_aux_exact; rewrite ?SB; [| lia | lia | rewrite SP; apply Z.divide_mul_r, Z.divide_refl | lia].
  rewrite SP, Z.div_mul by lia. set (pw := 2 ^ (E - 101)) in *.
  unfold toBits. rewrite Z2Pos.id by nia. destruct (Z.ltb_spec (q * pw) (2 ^ 23)) as [L|L]; [lia|nia].
Qed.

(** The rest is too small to be rounded up to a half. *)
Lemma scaled_tiny : forall g, 0 <= g < 101 * 2 ^ 23 -> 0 <= scaled g <= 2 ^ 11.
Proof.
  intros g G. unfold scaled.
  assert (X : ofBits g = S754_zero false \/ exists m e, ofBits g = S754_finite false m e /\ e <= -50 /\ Z.pos m < 2 ^ 24).
  { pose proof (Z.div_mod g (2 ^ 23) ltac:(lia)) as DM. pose proof (Z.mod_pos_bound g (2 ^ 23) ltac:(lia)) as MB.
    assert (EB : 0 <= g / 2 ^ 23 < 101) by (split; [apply Z.div_pos; lia | apply Z.div_lt_upper_bound; lia]).
    destruct (Z.eq_dec (g / 2 ^ 23) 0) as [E0|E0].
    - assert (GM : g < 2 ^ 23) by lia. destruct g as [|p|p]; [left; reflexivity| |lia]. right. exists p, (-149). rewrite ofBits_sub by lia. repeat split; lia.
    - right. exists (Z.to_pos (2 ^ 23 + g mod 2 ^ 23)), (g / 2 ^ 23 - 150).
      replace g with (g / 2 ^ 23 * 2 ^ 23 + g mod 2 ^ 23) at 1 by lia. rewrite ofBits_normal by lia. rewrite Z2Pos.id by lia. repeat split; lia. }
  destruct X as [-> | (m & e & -> & EB & MB)]; [cbn; lia|]. rewrite scaled_mul.
  assert (T : 2 ^ 47 <= 2 ^ (11 - 149 - (e - 135))) by (apply Z.pow_le_mono_r; lia).
  pose proof (round_tiny (Z.pos m * 2 ^ 23) (e - 135) 11 ltac:(lia) ltac:(lia) ltac:(lia)) as RT.
  destruct (binary_round_aux 24 128 false (Z.pos m * 2 ^ 23) (e - 135) loc_Exact) as [s|s| |s m' e']; try contradiction.
  - rewrite RT. cbn. lia.
  - destruct RT as (-> & -> & MB'). unfold toBits. destruct (Z.ltb_spec (Z.pos m') (2 ^ 23)); lia.
Qed.

(** Multiples of 2^12 are patterns whose number times 2^112 is again such a pattern. *)
Lemma lift_exists : forall c, 0 <= c -> c mod 2 ^ 12 = 0 -> exists d, 0 <= d /\ d mod 2 ^ 12 = 0 /\ magnitude 23 d = magnitude 23 c * 2 ^ 112.
Proof.
  intros c C CM. pose proof (Z.div_mod c (2 ^ 12) ltac:(lia)) as CD. rewrite CM, Z.add_0_r in CD.
  destruct (mag_cases 23 ltac:(lia) c ltac:(lia)) as (E & M & EQ & E0 & MB & V). rewrite V.
  destruct (Z.eqb_spec E 0) as [EZ|EZ].
  - subst E. assert (CM' : c = M) by lia. set (j := c / 2 ^ 12) in *. assert (JB : 0 <= j < 2 ^ 11) by lia.
    destruct (Z.eq_dec j 0) as [J0|J0].
    + exists 0. repeat split; try lia. replace M with 0 by lia. reflexivity.
    + pose proof (Zdigits2_le j 11 ltac:(lia) ltac:(lia)) as D. 
      destruct (Zdigits2_bound j ltac:(lia)) as (_ & DU). 
      assert (DL : 2 ^ (Zdigits2 j - 1) <= j). { destruct j as [|p|p]; [lia| |lia]. apply digits2_low. }
      assert (D1 : 1 <= Zdigits2 j) by (destruct j as [|p|p]; [lia|cbn; lia|lia]).
      set (n := Zdigits2 j) in *. clearbody n j.
      assert (P2 : j * 2 ^ (24 - n) < 2 ^ 24). { replace 24 with (n + (24 - n)) at 2 by lia. rewrite Z.pow_add_r by lia. apply Z.mul_lt_mono_pos_r; [apply Z.pow_pos_nonneg; lia|lia]. }
      assert (P1 : 2 ^ 23 <= j * 2 ^ (24 - n)). { replace 23 with ((n - 1) + (24 - n)) by lia. rewrite Z.pow_add_r by lia. apply Z.mul_le_mono_nonneg_r; [apply Z.pow_nonneg; lia|lia]. }
      exists ((101 + n) * 2 ^ 23 + (j * 2 ^ (24 - n) - 2 ^ 23)). split; [lia|]. split.
      * replace (24 - n) with ((12 - n) + 12) by lia. rewrite (Z.pow_add_r 2 (12 - n) 12) by lia.
        replace ((101 + n) * 2 ^ 23 + (j * (2 ^ (12 - n) * 2 ^ 12) - 2 ^ 23)) with (((101 + n) * 2 ^ 11 + j * 2 ^ (12 - n) - 2 ^ 11) * 2 ^ 12) by lia. apply Z.mod_mul; lia.
      * rewrite (mag_eq 23 ltac:(lia)) by lia. destruct (Z.eqb_spec (101 + n) 0); [lia|].
        replace (2 ^ 23 + (j * 2 ^ (24 - n) - 2 ^ 23)) with (j * 2 ^ (24 - n)) by lia. rewrite <- Z.mul_assoc, <- Z.pow_add_r by lia.
        replace (24 - n + (101 + n - 1)) with (12 + 112) by lia. rewrite Z.pow_add_r by lia. rewrite <- CM', CD. ring.
  - exists (c + 112 * 2 ^ 23). split; [lia|]. split.
    + rewrite CD. replace (2 ^ 12 * (c / 2 ^ 12) + 112 * 2 ^ 23) with ((c / 2 ^ 12 + 112 * 2 ^ 11) * 2 ^ 12) by lia. apply Z.mod_mul; lia.
    + replace (c + 112 * 2 ^ 23) with ((E + 112) * 2 ^ 23 + M) by lia. rewrite (mag_eq 23 ltac:(lia)) by lia.
      destruct (Z.eqb_spec (E + 112) 0); [lia|]. rewrite <- Z.mul_assoc, <- Z.pow_add_r by lia. do 2 f_equal. lia.
Qed.

Lemma mag_small : forall r, 0 <= r < 2 ^ 23 -> magnitude 23 r = r.
Proof. intros r R. replace r with (0 * 2 ^ 23 + r) at 1 by lia. rewrite (mag_eq 23 ltac:(lia)) by lia. reflexivity. Qed.

Lemma scaled_cut : forall g c, 0 <= g < 255 * 2 ^ 23 -> g mod 2 ^ 12 = 0 -> 0 <= c -> c mod 2 ^ 12 = 0 ->
  (c <= scaled g <-> magnitude 23 c * 2 ^ 112 <= magnitude 23 g).
Proof.
  intros g c G GM C CM. pose proof (Z.div_mod g (2 ^ 12) ltac:(lia)) as GD. rewrite GM, Z.add_0_r in GD.
  assert (P112 : 0 < 2 ^ 112) by (apply Z.pow_pos_nonneg; lia).
  assert (FIN : forall r, 0 <= r -> magnitude 23 g = magnitude 23 r * 2 ^ 112 -> (c <= r <-> magnitude 23 c * 2 ^ 112 <= magnitude 23 g)).
  { intros r R VR. rewrite VR. split; intros L.
    - apply Z.mul_le_mono_nonneg_r; [lia|]. apply mag_le; lia.
    - apply Z.mul_le_mono_pos_r in L; [|exact P112]. apply mag_le_inv in L; lia. }
  destruct (mag_cases 23 ltac:(lia) g ltac:(lia)) as (E & M & EQ & E0 & MB & V).
  assert (EB : E <= 254) by lia.
  destruct (Z.le_gt_cases 113 E) as [HN|HN]; [|destruct (Z.le_gt_cases 101 E) as [HE|HE]].
  - rewrite EQ at 1. rewrite scaled_normal by lia. apply FIN; [lia|]. rewrite V.
    replace (E * 2 ^ 23 + M - 112 * 2 ^ 23) with ((E - 112) * 2 ^ 23 + M) by lia. rewrite (mag_eq 23 ltac:(lia)) by lia.
    destruct (Z.eqb_spec E 0); [lia|]. destruct (Z.eqb_spec (E - 112) 0); [lia|]. rewrite <- Z.mul_assoc, <- Z.pow_add_r by lia. do 2 f_equal. lia.
  - assert (QM : exists q, M = q * 2 ^ 12 - 2 ^ 23). { exists (g / 2 ^ 12 - E * 2 ^ 11 + 2 ^ 11). lia. }
    destruct QM as (q & QM). assert (QB : 2 ^ 11 <= q < 2 ^ 12) by lia.
    rewrite EQ at 1. rewrite QM. rewrite scaled_exact by lia.
    assert (PE : 1 <= 2 ^ (E - 101) <= 2 ^ 11) by (split; [apply (Z.pow_le_mono_r 2 0); lia | apply Z.pow_le_mono_r; lia]).
    assert (RB : 0 <= q * 2 ^ (E - 101) < 2 ^ 23) by nia. apply FIN; [lia|]. rewrite (mag_small _ RB).
    rewrite V. destruct (Z.eqb_spec E 0); [lia|]. rewrite QM. replace (2 ^ 23 + (q * 2 ^ 12 - 2 ^ 23)) with (q * 2 ^ 12) by lia.
    replace (E - 1) with ((E - 101) + 100) by lia. rewrite Z.pow_add_r by lia. change (2 ^ 112) with (2 ^ 12 * 2 ^ 100). ring.
  - pose proof (scaled_tiny g ltac:(lia)) as ST. destruct (Z.eq_dec c 0) as [->|CN].
    + split; [|lia]. intros _. change (magnitude 23 0) with 0. rewrite Z.mul_0_l. apply mag_nonneg; lia.
    + assert (CB : 2 ^ 12 <= c). { pose proof (Z.div_mod c (2 ^ 12) ltac:(lia)). lia. }
      split; [lia|]. intros L. exfalso.
      pose proof (mag_le 23 ltac:(lia) (2 ^ 12) c ltac:(lia) CB) as L1. rewrite (mag_small (2 ^ 12)) in L1 by lia.
      pose proof (mag_lt 23 ltac:(lia) g (101 * 2 ^ 23 + 0) ltac:(lia) ltac:(lia)) as L2. rewrite (mag_eq 23 ltac:(lia)) in L2 by lia.
      change (101 =? 0) with false in L2. cbv iota in L2. change (101 - 1) with 100 in L2. rewrite Z.add_0_r in L2.
      assert (2 ^ 12 * 2 ^ 112 <= magnitude 23 c * 2 ^ 112) by (apply Z.mul_le_mono_nonneg_r; lia).
      assert (2 ^ 23 * 2 ^ 100 < 2 ^ 12 * 2 ^ 112) by reflexivity. lia.
Qed.

(** Comparing the result with a multiple of 2^12 is comparing the numbers. *)
Lemma scaled_ge : forall f c, 0 <= f < 255 * 2 ^ 23 -> 0 <= c -> c mod 2 ^ 12 = 0 ->
  (c <= scaled (f - f mod 2 ^ 12) <-> magnitude 23 c * 2 ^ 112 <= magnitude 23 f).
Proof.
  intros f c F C CM. set (g := f - f mod 2 ^ 12).
  pose proof (Z.mod_pos_bound f (2 ^ 12) ltac:(lia)) as FM. pose proof (Z.div_mod f (2 ^ 12) ltac:(lia)) as FD.
  assert (G : g = f / 2 ^ 12 * 2 ^ 12) by (unfold g; lia). assert (F12 : 0 <= f / 2 ^ 12) by (apply Z.div_pos; lia).
  assert (GM : g mod 2 ^ 12 = 0) by (rewrite G; apply Z.mod_mul; lia).
  rewrite (scaled_cut g c) by (try assumption; lia).
  destruct (lift_exists c C CM) as (d & D0 & DM & DV). rewrite <- DV. split; intros L; apply mag_le_inv in L; try lia; apply mag_le; try lia.
  pose proof (Z.div_mod d (2 ^ 12) ltac:(lia)) as DD. assert (d / 2 ^ 12 <= f / 2 ^ 12) by (apply Z.div_le_mono; lia). lia.
Qed.

(** *** Widening *)

Lemma abs16_bound : forall h, half h -> 0 <= abs16 h < 2 ^ 15.
Proof. intros h H. unfold abs16. apply Z.mod_pos_bound. lia. Qed.
Lemma abs16_sign : forall h, half h -> h = abs16 h + (if neg16 h then 2 ^ 15 else 0).
Proof.
  intros h H. unfold half, abs16, neg16 in *. destruct (Z.leb_spec (2 ^ 15) h).
  - assert (h mod 2 ^ 15 = h - 2 ^ 15) by (symmetry; apply Z.mod_unique with 1; lia). lia.
  - rewrite Z.mod_small by lia. lia.
Qed.
Lemma make16 : forall a s, 0 <= a < 2 ^ 15 -> let h := a + (if s : bool then 2 ^ 15 else 0) in half h /\ abs16 h = a /\ neg16 h = s.
Proof.
  intros a s A h. unfold half, abs16, neg16. subst h. destruct s.
  - repeat split; first [lia | symmetry; apply Z.mod_unique with 1; lia | apply Z.leb_le; lia].
  - rewrite Z.add_0_r. repeat split; first [lia | apply Z.mod_small; lia | apply Z.leb_gt; lia].
Qed.
Lemma abs32_bound : forall b, single b -> 0 <= abs32 b < 2 ^ 31.
Proof. intros h H. unfold abs32. apply Z.mod_pos_bound. lia. Qed.
Lemma make32 : forall a s, 0 <= a < 2 ^ 31 -> let h := a + (if s : bool then 2 ^ 31 else 0) in single h /\ abs32 h = a /\ neg32 h = s.
Proof.
  intros a s A h. unfold single, abs32, neg32. subst h. destruct s.
  - repeat split; first [lia | symmetry; apply Z.mod_unique with 1; lia | apply Z.leb_le; lia].
  - rewrite Z.add_0_r. repeat split; first [lia | apply Z.mod_small; lia | apply Z.leb_gt; lia].
Qed.

Lemma lor_sign : forall n a (s : bool), 0 <= n -> 0 <= a < 2 ^ n -> Z.lor a (if s then 2 ^ n else 0) = a + (if s then 2 ^ n else 0).
Proof.
  intros n a s N A. destruct s; [|rewrite Z.lor_0_r; lia]. rewrite Z.lor_comm. replace (2 ^ n) with (Z.shiftl 1 n) at 1 by (rewrite Z.shiftl_mul_pow2; lia).
  rewrite lor_add by lia. lia.
Qed.

(** The magnitude before the sign is put back. *)
Definition widened (a : Z) : Z :=
  if a / 2 ^ 10 =? 31 then a * 2 ^ 13 + 224 * 2 ^ 23
  else if a / 2 ^ 10 =? 0 then toBits (sub32 (ofBits (a * 2 ^ 13 + 113 * 2 ^ 23)) (ofBits (113 * 2 ^ 23)))
  else a * 2 ^ 13 + 112 * 2 ^ 23.

Lemma sub_magic : forall a, 0 < a < 2 ^ 10 -> let n := Zdigits2 a in
  1 <= n <= 10 /\ 2 ^ (n - 1) <= a < 2 ^ n /\
  toBits (sub32 (ofBits (a * 2 ^ 13 + 113 * 2 ^ 23)) (ofBits (113 * 2 ^ 23))) = (101 + n) * 2 ^ 23 + a * 2 ^ (24 - n).
Proof.
  intros a A n. assert (NB : 1 <= n <= 10) by (unfold n; pose proof (Zdigits2_le a 10 ltac:(lia) ltac:(lia)); destruct a; cbn in *; lia).
  assert (LB : 2 ^ (n - 1) <= a < 2 ^ n). { unfold n. destruct a as [|p|p]; try lia. split; [apply digits2_low | apply digits2_bound]. }
  split; [exact NB|]. split; [exact LB|].
  replace (a * 2 ^ 13 + 113 * 2 ^ 23) with (113 * 2 ^ 23 + a * 2 ^ 13) by lia. rewrite ofBits_normal by lia.
  change (ofBits (113 * 2 ^ 23)) with (S754_finite false (Z.to_pos (2 ^ 23)) (113 - 150)).
  unfold sub32. cbn [SFsub]. rewrite Z.min_id.
  assert (SA : forall m, fst (shl_align m (113 - 150) (113 - 150)) = m).
  { intros m. unfold shl_align. rewrite Z.sub_diag. reflexivity. }
  rewrite !SA. cbn [cond_Zopp]. rewrite !Z2Pos.id by lia. replace (2 ^ 23 + a * 2 ^ 13 - 2 ^ 23) with (a * 2 ^ 13) by lia.
  destruct (a * 2 ^ 13) as [|p|p] eqn:P; try lia. cbn [binary_normalize].
  assert (D : Zdigits2 (Z.pos p) = n + 13). { rewrite <- P. unfold n. destruct a as [|q|q]; try lia. apply Zdigits2_mul. lia. }
  assert (PP : 0 < 2 ^ (24 - n)) by (apply Z.pow_pos_nonneg; lia).
  assert (MV : Z.pos p * 2 ^ (24 - (n + 13)) = a * 2 ^ (24 - n)).
  { rewrite <- P. replace (24 - n) with (13 + (24 - (n + 13))) by lia. rewrite Z.pow_add_r by lia. ring. }
  assert (ML : 2 ^ 23 <= a * 2 ^ (24 - n)).
  { replace 23 with ((n - 1) + (24 - n)) by lia. rewrite Z.pow_add_r by lia. apply Z.mul_le_mono_nonneg_r; lia. }
  rewrite (round_exact 24 128 ltac:(lia)); rewrite ?D; [| lia | unfold SpecFloat.emin; lia | lia].
  rewrite MV. unfold toBits. rewrite Z2Pos.id by lia. destruct (Z.ltb_spec (a * 2 ^ (24 - n)) (2 ^ 23)); lia.
Qed.

Lemma widened_finite : forall a, 0 <= a < 31 * 2 ^ 10 -> 0 <= widened a < 255 * 2 ^ 23 /\ magnitude 23 (widened a) = magnitude 10 a * 2 ^ 125.
Proof.
  intros a A. unfold widened. destruct (mag_cases 10 ltac:(lia) a ltac:(lia)) as (E & M & EQ & E0 & MB & V).
  assert (D : a / 2 ^ 10 = E) by (symmetry; apply Z.div_unique with M; lia). rewrite D, V.
  destruct (Z.eqb_spec E 31); [lia|]. destruct (Z.eqb_spec E 0) as [EZ|EZ].
  - assert (AM : a = M) by lia. destruct (Z.eq_dec a 0) as [Z0|NZ].
    + rewrite Z0. replace M with 0 by lia. split; [vm_compute; split; congruence | reflexivity].
    + destruct (sub_magic a ltac:(lia)) as (NB & LB & ->). clear D. generalize dependent (Zdigits2 a). intros d NB LB. rename d into w.
      assert (PP : 0 < 2 ^ (24 - w)) by (apply Z.pow_pos_nonneg; lia).
      assert (ML : 2 ^ 23 <= a * 2 ^ (24 - w)).
      { replace 23 with ((w - 1) + (24 - w)) by lia. rewrite Z.pow_add_r by lia. apply Z.mul_le_mono_nonneg_r; lia. }
      assert (MU : a * 2 ^ (24 - w) < 2 ^ 24).
      { replace 24 with (w + (24 - w)) at 2 by lia. rewrite Z.pow_add_r by lia. apply Z.mul_lt_mono_pos_r; lia. }
      split; [lia|]. replace ((101 + w) * 2 ^ 23 + a * 2 ^ (24 - w)) with ((102 + w) * 2 ^ 23 + (a * 2 ^ (24 - w) - 2 ^ 23)) by lia.
      rewrite (mag_eq 23 ltac:(lia)) by lia. destruct (Z.eqb_spec (102 + w) 0); [lia|].
      replace (2 ^ 23 + (a * 2 ^ (24 - w) - 2 ^ 23)) with (a * 2 ^ (24 - w)) by lia. rewrite <- Z.mul_assoc, <- Z.pow_add_r by lia. rewrite AM. do 2 f_equal. lia.
  - split; [lia|]. replace (a * 2 ^ 13 + 112 * 2 ^ 23) with ((E + 112) * 2 ^ 23 + M * 2 ^ 13) by lia. rewrite (mag_eq 23 ltac:(lia)) by lia.
    destruct (Z.eqb_spec (E + 112) 0); [lia|]. replace (2 ^ 23 + M * 2 ^ 13) with ((2 ^ 10 + M) * 2 ^ 13) by lia.
    rewrite <- !Z.mul_assoc, <- !Z.pow_add_r by lia. do 2 f_equal. lia.
Qed.

Lemma widened_special : forall a, 31 * 2 ^ 10 <= a < 2 ^ 15 -> widened a = a * 2 ^ 13 + 224 * 2 ^ 23.
Proof.
  intros a A. unfold widened. replace (a / 2 ^ 10) with 31; [reflexivity|]. apply Z.div_unique with (a - 31 * 2 ^ 10); lia.
Qed.

Lemma widened_bound : forall a, 0 <= a < 2 ^ 15 -> 0 <= widened a < 2 ^ 31.
Proof.
  intros a A. destruct (Z.lt_ge_cases a (31 * 2 ^ 10)) as [L|L].
  - pose proof (widened_finite a ltac:(lia)). lia.
  - rewrite widened_special by lia. lia.
Qed.

Lemma halfToFloat_eq : forall h, half h -> halfToFloat h = widened (abs16 h) + (if neg16 h then 2 ^ 31 else 0).
Proof.
  intros h H. pose proof (abs16_bound h H) as A. unfold half in H. unfold halfToFloat.
  change 0x7FFF with (Z.ones 15). rewrite Z.land_ones by lia. fold (abs16 h). rewrite land_exp by exact A.
  change 0x8000 with (2 ^ 15). rewrite (land_top 15) by lia. fold (neg16 h).
  assert (SG : Z.shiftl (if neg16 h then 2 ^ 15 else 0) 16 = if neg16 h then 2 ^ 31 else 0) by (destruct (neg16 h); reflexivity). rewrite SG.
  set (a := abs16 h) in *. clearbody a.
  change (Z.shiftl 0x7C00 13) with (31 * 2 ^ 23). change (Z.shiftl 112 23) with (112 * 2 ^ 23). change (Z.shiftl 1 23) with (2 ^ 23). change (Z.shiftl 113 23) with (113 * 2 ^ 23).
  rewrite Z.shiftl_mul_pow2 by lia.
  assert (W : forall x, 0 <= x < 2 ^ 32 -> wrapu32 x = x) by (intros x X; unfold wrapu32; apply Z.mod_small; exact X).
  pose proof (Z.div_mod a (2 ^ 10) ltac:(lia)) as DM. pose proof (Z.mod_pos_bound a (2 ^ 10) ltac:(lia)) as MB.
  assert (IN : (if a / 2 ^ 10 * 2 ^ 23 =? 31 * 2 ^ 23 then wrapu32 (wrapu32 (a * 2 ^ 13 + 112 * 2 ^ 23) + 112 * 2 ^ 23)
    else if a / 2 ^ 10 * 2 ^ 23 =? 0 then toBits (sub32 (ofBits (wrapu32 (wrapu32 (a * 2 ^ 13 + 112 * 2 ^ 23) + 2 ^ 23))) (ofBits (113 * 2 ^ 23)))
    else wrapu32 (a * 2 ^ 13 + 112 * 2 ^ 23)) = widened a).
  { unfold widened. rewrite !(W (a * 2 ^ 13 + 112 * 2 ^ 23)) by lia.
    destruct (Z.eqb_spec (a / 2 ^ 10) 31) as [E|E].
    - rewrite (proj2 (Z.eqb_eq (a / 2 ^ 10 * 2 ^ 23) (31 * 2 ^ 23))) by lia. rewrite W by lia. lia.
    - rewrite (proj2 (Z.eqb_neq (a / 2 ^ 10 * 2 ^ 23) (31 * 2 ^ 23))) by lia.
      destruct (Z.eqb_spec (a / 2 ^ 10) 0) as [F|F].
      + rewrite (proj2 (Z.eqb_eq (a / 2 ^ 10 * 2 ^ 23) 0)) by lia. rewrite W by lia. do 3 f_equal. lia.
      + rewrite (proj2 (Z.eqb_neq (a / 2 ^ 10 * 2 ^ 23) 0)) by lia. reflexivity. }
  cbv zeta. rewrite IN. apply lor_sign; [lia|]. apply widened_bound. exact A.
Qed.

(** *** Narrowing *)

Definition narrowed (f : Z) : Z :=
  if f >? 255 * 2 ^ 23 then 0x7E00 else if f =? 255 * 2 ^ 23 then 0x7C00
  else Z.min (scaled (f - f mod 2 ^ 12) + 2 ^ 12) (31 * 2 ^ 23) / 2 ^ 13.

Lemma scaled_bound : forall g, 0 <= g < 255 * 2 ^ 23 -> g mod 2 ^ 12 = 0 -> 0 <= scaled g < 2 ^ 31.
Proof.
  intros g G GM. destruct (Z.lt_ge_cases g (101 * 2 ^ 23)) as [L|L]; [pose proof (scaled_tiny g ltac:(lia)); lia|].
  pose proof (Z.div_mod g (2 ^ 12) ltac:(lia)) as GD. rewrite GM, Z.add_0_r in GD.
  destruct (mag_cases 23 ltac:(lia) g ltac:(lia)) as (E & M & EQ & E0 & MB & V).
  assert (EB : 101 <= E <= 254) by lia.
  destruct (Z.le_gt_cases 113 E) as [HN|HN].
  - rewrite EQ. rewrite scaled_normal by lia. lia.
  - assert (QM : exists q, M = q * 2 ^ 12 - 2 ^ 23). { exists (g / 2 ^ 12 - E * 2 ^ 11 + 2 ^ 11). lia. }
    destruct QM as (q & QM). assert (QB : 2 ^ 11 <= q < 2 ^ 12) by lia. rewrite EQ, QM. rewrite scaled_exact by lia.
    assert (PE : 1 <= 2 ^ (E - 101) <= 2 ^ 11) by (split; [apply (Z.pow_le_mono_r 2 0); lia | apply Z.pow_le_mono_r; lia]). nia.
Qed.

Lemma down12 : forall f, 0 <= f -> 0 <= f - f mod 2 ^ 12 <= f /\ (f - f mod 2 ^ 12) mod 2 ^ 12 = 0.
Proof.
  intros f F. pose proof (Z.mod_pos_bound f (2 ^ 12) ltac:(lia)) as FM. pose proof (Z.div_mod f (2 ^ 12) ltac:(lia)) as FD.
  assert (F12 : 0 <= f / 2 ^ 12) by (apply Z.div_pos; lia). split; [lia|].
  replace (f - f mod 2 ^ 12) with (f / 2 ^ 12 * 2 ^ 12) by lia. apply Z.mod_mul; lia.
Qed.

Lemma narrowed_bound : forall f, 0 <= f -> 0 <= narrowed f < 2 ^ 15.
Proof.
  intros f F. unfold narrowed. destruct (Z.gtb_spec f (255 * 2 ^ 23)); [lia|]. destruct (Z.eqb_spec f (255 * 2 ^ 23)); [lia|].
  destruct (down12 f F) as (D1 & D2). pose proof (scaled_bound (f - f mod 2 ^ 12) ltac:(lia) D2) as SB.
  split; [apply Z.div_pos; lia | apply Z.div_lt_upper_bound; lia].
Qed.

Lemma floatToHalf_eq : forall b, single b -> floatToHalf b = narrowed (abs32 b) + (if neg32 b then 2 ^ 15 else 0).
Proof.
  intros b B. pose proof (abs32_bound b B) as A. unfold single in B. unfold floatToHalf.
  change 0x80000000 with (2 ^ 31). rewrite (lxor_top 31) by lia. fold (abs32 b). rewrite (land_top 31) by lia. fold (neg32 b).
  change (wrapu32 (Z.lnot 0x0FFF)) with 0xFFFFF000. change (Z.shiftl 255 23) with (255 * 2 ^ 23). change (Z.shiftl 31 23) with (31 * 2 ^ 23).
  assert (SG : wrapu16 (Z.shiftr (if neg32 b then 2 ^ 31 else 0) 16) = if neg32 b then 2 ^ 15 else 0) by (destruct (neg32 b); reflexivity). rewrite SG.
  set (f := abs32 b) in *. clearbody f. cbv zeta.
  match goal with |- Z.lor ?r _ = _ => assert (IN : r = narrowed f) end.
  { unfold narrowed. destruct (Z.geb_spec f (255 * 2 ^ 23)) as [G|G].
    - destruct (Z.gtb_spec f (255 * 2 ^ 23)); [reflexivity|]. rewrite (proj2 (Z.eqb_eq f (255 * 2 ^ 23))) by lia. reflexivity.
    - destruct (Z.gtb_spec f (255 * 2 ^ 23)); [lia|]. rewrite (proj2 (Z.eqb_neq f (255 * 2 ^ 23))) by lia.
      rewrite land_ge12 by lia. destruct (down12 f ltac:(lia)) as (D1 & D2). pose proof (scaled_bound (f - f mod 2 ^ 12) ltac:(lia) D2) as SB.
      fold (scaled (f - f mod 2 ^ 12)). set (r := scaled (f - f mod 2 ^ 12)) in *. clearbody r.
      assert (WR : wrapu32 (r - 0xFFFFF000) = r + 2 ^ 12). { unfold wrapu32. symmetry. apply Z.mod_unique with (-1); lia. }
      rewrite WR. rewrite Z.shiftr_div_pow2 by lia.
      assert (MN : (if r + 2 ^ 12 >? 31 * 2 ^ 23 then 31 * 2 ^ 23 else r + 2 ^ 12) = Z.min (r + 2 ^ 12) (31 * 2 ^ 23)).
      { destruct (Z.gtb_spec (r + 2 ^ 12) (31 * 2 ^ 23)); lia. }
      rewrite MN. unfold wrapu16. apply Z.mod_small. split; [apply Z.div_pos; lia | apply Z.div_lt_upper_bound; lia]. }
  rewrite IN. apply lor_sign; [lia|]. apply narrowed_bound. lia.
Qed.

(** Between which middles the number lies. *)
Lemma narrowed_range : forall f, 0 <= f < 255 * 2 ^ 23 -> let k := narrowed f in
  0 <= k <= 31 * 2 ^ 10 /\
  (0 < k -> (magnitude 10 (k - 1) + magnitude 10 k) * unit <= 2 * magnitude 23 f) /\
  (k < 31 * 2 ^ 10 -> 2 * magnitude 23 f < (magnitude 10 k + magnitude 10 (k + 1)) * unit).
Proof.
  intros f F k. unfold k, narrowed. destruct (Z.gtb_spec f (255 * 2 ^ 23)); [lia|]. destruct (Z.eqb_spec f (255 * 2 ^ 23)); [lia|].
  destruct (down12 f ltac:(lia)) as (D1 & D2). pose proof (scaled_bound (f - f mod 2 ^ 12) ltac:(lia) D2) as SB.
  pose proof (fun c => scaled_ge f c F) as SG. set (r := scaled (f - f mod 2 ^ 12)) in *. clearbody r.
  set (m := Z.min (r + 2 ^ 12) (31 * 2 ^ 23)). pose proof (Z.div_mod m (2 ^ 13) ltac:(lia)) as DM. pose proof (Z.mod_pos_bound m (2 ^ 13) ltac:(lia)) as MB.
  assert (Q0 : 0 <= m / 2 ^ 13) by (apply Z.div_pos; [unfold m; lia|lia]). set (q := m / 2 ^ 13) in *.
  assert (U : unit = 2 ^ 13 * 2 ^ 112) by reflexivity.
  split; [unfold m in *; lia|]. split.
  - intros K. assert (L : (q - 1) * 2 ^ 13 + 2 ^ 12 <= r) by (unfold m in *; lia).
    apply SG in L; [|lia|replace ((q - 1) * 2 ^ 13 + 2 ^ 12) with ((2 * q - 1) * 2 ^ 12) by lia; apply Z.mod_mul; lia].
    pose proof (mag_middle (q - 1) ltac:(lia)) as MM. replace (q - 1 + 1) with q in MM by lia. rewrite U, Z.mul_assoc, <- MM. lia.
  - intros K. assert (L : ~ (q * 2 ^ 13 + 2 ^ 12 <= r)) by (unfold m in *; lia).
    rewrite SG in L; [|lia|replace (q * 2 ^ 13 + 2 ^ 12) with ((2 * q + 1) * 2 ^ 12) by lia; apply Z.mod_mul; lia].
    pose proof (mag_middle q ltac:(lia)) as MM. rewrite U, Z.mul_assoc, <- MM. lia.
Qed.

(** The range determines the result. *)
Lemma range_unique : forall f k j, 0 <= k -> 0 <= j -> j <= 31 * 2 ^ 10 ->
  (0 < j -> (magnitude 10 (j - 1) + magnitude 10 j) * unit <= 2 * magnitude 23 f) ->
  (j < 31 * 2 ^ 10 -> 2 * magnitude 23 f < (magnitude 10 j + magnitude 10 (j + 1)) * unit) ->
  magnitude 23 f = magnitude 10 k * unit -> k < 31 * 2 ^ 10 -> j = k.
Proof.
  intros f k j K J JB L U V KB. assert (UP : 0 < unit) by reflexivity.
  destruct (Z.lt_trichotomy j k) as [C|[C|C]]; [|assumption|]; exfalso.
  - pose proof (U ltac:(lia)) as UU. rewrite V in UU. pose proof (mag_le 10 ltac:(lia) (j + 1) k ltac:(lia) ltac:(lia)).
    pose proof (mag_lt 10 ltac:(lia) j k ltac:(lia) ltac:(lia)). nia.
  - pose proof (L ltac:(lia)) as LL. rewrite V in LL. pose proof (mag_le 10 ltac:(lia) k (j - 1) ltac:(lia) ltac:(lia)).
    pose proof (mag_lt 10 ltac:(lia) k j ltac:(lia) ltac:(lia)). nia.
Qed.

(** *** The properties *)

Lemma half_widen : forall h, half h -> single (halfToFloat h) /\ neg32 (halfToFloat h) = neg16 h /\
  (finite16 h -> finite32 (halfToFloat h) /\ value32 (halfToFloat h) = value16 h * unit) /\
  (inf16 h -> inf32 (halfToFloat h)) /\ (nan16 h -> nan32 (halfToFloat h)).
Proof.
  intros h H. rewrite (halfToFloat_eq h H). pose proof (abs16_bound h H) as A.
  destruct (make32 (widened (abs16 h)) (neg16 h) (widened_bound _ A)) as (S & AB & NG).
  split; [exact S|]. split; [exact NG|]. unfold finite32, inf32, nan32, finite16, inf16, nan16, value32, value16. rewrite AB, NG. split; [|split].
  - intros F. destruct (widened_finite (abs16 h) ltac:(lia)) as (W1 & W2). split; [lia|]. rewrite W2. fold unit. destruct (neg16 h); ring.
  - intros I. rewrite widened_special by lia. lia.
  - intros I. rewrite widened_special by lia. lia.
Qed.

Lemma half_round_trip : forall h, half h -> ~ nan16 h -> floatToHalf (halfToFloat h) = h.
Proof.
  intros h H NN. pose proof (abs16_bound h H) as A. unfold nan16 in NN.
  destruct (half_widen h H) as (S & _). rewrite (floatToHalf_eq _ S). rewrite (halfToFloat_eq h H).
  destruct (make32 (widened (abs16 h)) (neg16 h) (widened_bound _ A)) as (_ & AB & NG). rewrite AB, NG.
  rewrite (abs16_sign h H) at 3. f_equal.
  destruct (Z.eq_dec (abs16 h) (31 * 2 ^ 10)) as [E|E].
  - rewrite widened_special by lia. rewrite E. reflexivity.
  - destruct (widened_finite (abs16 h) ltac:(lia)) as (W1 & W2).
    destruct (narrowed_range (widened (abs16 h)) W1) as (R0 & R1 & R2).
    apply (range_unique (widened (abs16 h)) (abs16 h) (narrowed (widened (abs16 h)))); try lia; try assumption.
Qed.

Lemma half_nan : forall b, single b -> nan32 b -> nan16 (floatToHalf b) /\ neg16 (floatToHalf b) = neg32 b.
Proof.
  intros b B N. rewrite (floatToHalf_eq b B). pose proof (abs32_bound b B) as A.
  destruct (make16 (narrowed (abs32 b)) (neg32 b) (narrowed_bound _ (proj1 A))) as (_ & AB & NG). unfold nan16. rewrite AB, NG. split; [|reflexivity].
  unfold nan32 in N. unfold narrowed. destruct (Z.gtb_spec (abs32 b) (255 * 2 ^ 23)); lia.
Qed.
Lemma half_inf : forall b, single b -> inf32 b -> inf16 (floatToHalf b) /\ neg16 (floatToHalf b) = neg32 b.
Proof.
  intros b B N. rewrite (floatToHalf_eq b B). pose proof (abs32_bound b B) as A.
  destruct (make16 (narrowed (abs32 b)) (neg32 b) (narrowed_bound _ (proj1 A))) as (_ & AB & NG). unfold inf16. rewrite AB, NG. split; [|reflexivity].
  unfold inf32 in N. rewrite N. reflexivity.
Qed.

Lemma half_finite : forall b, single b -> finite32 b -> let h := floatToHalf b in
  half h /\ ~ nan16 h /\ neg16 h = neg32 b /\ (inf16 h <-> overflow <= Z.abs (value32 b)) /\
  (finite16 h -> forall g, half g -> finite16 g -> Z.abs (value16 h * unit - value32 b) <= Z.abs (value16 g * unit - value32 b)).
Proof.
  intros b B F h. unfold h. rewrite (floatToHalf_eq b B). pose proof (abs32_bound b B) as A.
  destruct (make16 (narrowed (abs32 b)) (neg32 b) (narrowed_bound _ (proj1 A))) as (HH & AB & NG).
  set (x := narrowed (abs32 b) + (if neg32 b then 2 ^ 15 else 0)) in *. clearbody x.
  destruct (narrowed_range (abs32 b) ltac:(unfold finite32 in F; lia)) as (R0 & R1 & R2).
  split; [exact HH|]. unfold nan16, inf16, finite16, value16, value32. rewrite AB, NG.
  set (k := narrowed (abs32 b)) in *. clearbody k.
  pose proof (mag_nonneg 23 ltac:(lia) (abs32 b) ltac:(lia)) as X0. set (X := magnitude 23 (abs32 b)) in *. clearbody X.
  assert (UP : 0 < unit) by reflexivity. pose proof (mag_nonneg 10 ltac:(lia) k ltac:(lia)) as K0.
  split; [lia|]. split; [reflexivity|]. split.
  - assert (AX : Z.abs (if neg32 b then - X else X) = X) by (destruct (neg32 b); lia). rewrite AX.
    assert (OV : (magnitude 10 (31 * 2 ^ 10 - 1) + magnitude 10 (31 * 2 ^ 10)) * unit = 2 * overflow) by reflexivity. split.
    + intros E. rewrite E in R1. pose proof (R1 ltac:(lia)). lia.
    + intros O. destruct (Z.eq_dec k (31 * 2 ^ 10)) as [|NE]; [assumption|exfalso]. pose proof (R2 ltac:(lia)) as U.
      pose proof (mag_le 10 ltac:(lia) k (31 * 2 ^ 10 - 1) ltac:(lia) ltac:(lia)). pose proof (mag_le 10 ltac:(lia) (k + 1) (31 * 2 ^ 10) ltac:(lia) ltac:(lia)). nia.
  - intros KF g G GF. pose proof (abs16_bound g G) as GA. pose proof (mag_nonneg 10 ltac:(lia) (abs16 g) ltac:(lia)) as G0.
    assert (MAIN : forall y, Z.abs y = magnitude 10 (abs16 g) -> Z.abs (magnitude 10 k * unit - X) <= Z.abs (y * unit - X)).
    { intros y Y. destruct (Z.lt_trichotomy (abs16 g) k) as [C|[C|C]].
      - pose proof (R1 ltac:(lia)) as L. pose proof (mag_le 10 ltac:(lia) (abs16 g) (k - 1) ltac:(lia) ltac:(lia)).
        pose proof (mag_lt 10 ltac:(lia) (k - 1) k ltac:(lia) ltac:(lia)). 
        assert (YB : y * unit <= magnitude 10 (k - 1) * unit) by (apply Z.mul_le_mono_nonneg_r; lia).
        assert (magnitude 10 (k - 1) * unit < magnitude 10 k * unit) by (apply Z.mul_lt_mono_pos_r; lia). lia.
      -
        rewrite C in Y. assert (Y2 : y = magnitude 10 k \/ y = - magnitude 10 k) by lia. destruct Y2 as [->| ->]; [lia|].
        assert (0 <= magnitude 10 k * unit) by (apply Z.mul_nonneg_nonneg; lia). rewrite Z.mul_opp_l. lia.
      - pose proof (R2 ltac:(lia)) as L. pose proof (mag_le 10 ltac:(lia) (k + 1) (abs16 g) ltac:(lia) ltac:(lia)).
        pose proof (mag_lt 10 ltac:(lia) k (k + 1) ltac:(lia) ltac:(lia)).
        assert (magnitude 10 k * unit < magnitude 10 (k + 1) * unit) by (apply Z.mul_lt_mono_pos_r; lia).
        assert (0 <= magnitude 10 k * unit) by (apply Z.mul_nonneg_nonneg; lia).
        assert (Y2 : y = magnitude 10 (abs16 g) \/ y = - magnitude 10 (abs16 g)) by lia.
        assert (YB : magnitude 10 (k + 1) * unit <= magnitude 10 (abs16 g) * unit) by (apply Z.mul_le_mono_nonneg_r; lia).
        destruct Y2 as [->| ->]; [lia|]. rewrite Z.mul_opp_l. lia. }
    destruct (neg32 b).
    + replace (- magnitude 10 k * unit - - X) with (- (magnitude 10 k * unit - X)) by ring. rewrite Z.abs_opp.
      set (v := if neg16 g then - magnitude 10 (abs16 g) else magnitude 10 (abs16 g)).
      replace (v * unit - - X) with (- (- v * unit - X)) by ring. rewrite (Z.abs_opp (- v * unit - X)). apply MAIN. unfold v. destruct (neg16 g); lia.
    + apply MAIN. destruct (neg16 g); lia.
Qed.

(** A float in the middle between two neighbouring halves goes to the one of greater magnitude. *)
Lemma half_ties : forall b k, single b -> finite32 b -> 0 <= k < 31 * 2 ^ 10 ->
  2 * Z.abs (value32 b) = (magnitude 10 k + magnitude 10 (k + 1)) * unit -> abs16 (floatToHalf b) = k + 1.
Proof.
  intros b k B F K T. rewrite (floatToHalf_eq b B). pose proof (abs32_bound b B) as A.
  destruct (make16 (narrowed (abs32 b)) (neg32 b) (narrowed_bound _ (proj1 A))) as (_ & AB & _). rewrite AB.
  destruct (narrowed_range (abs32 b) ltac:(unfold finite32 in F; lia)) as (R0 & R1 & R2).
  pose proof (mag_nonneg 23 ltac:(lia) (abs32 b) ltac:(lia)) as X0.
  assert (AX : Z.abs (value32 b) = magnitude 23 (abs32 b)) by (unfold value32; destruct (neg32 b); lia). rewrite AX in T. rewrite T in *.
  set (j := narrowed (abs32 b)) in *. clearbody j. assert (UP : 0 < unit) by reflexivity.
  destruct (Z.lt_trichotomy j (k + 1)) as [C|[C|C]]; [|assumption|]; exfalso.
  - pose proof (R2 ltac:(lia)) as U. pose proof (mag_le 10 ltac:(lia) j k ltac:(lia) ltac:(lia)). pose proof (mag_le 10 ltac:(lia) (j + 1) (k + 1) ltac:(lia) ltac:(lia)). nia.
  - pose proof (R1 ltac:(lia)) as L. pose proof (mag_le 10 ltac:(lia) (k + 1) (j - 1) ltac:(lia) ltac:(lia)). pose proof (mag_lt 10 ltac:(lia) (k + 1) j ltac:(lia) ltac:(lia)).
    pose proof (mag_lt 10 ltac:(lia) k (j - 1) ltac:(lia) ltac:(lia)). nia.
Qed.

Lemma land_exp16 : forall v, half v -> isInfHalf v = (31 * 2 ^ 10 <=? abs16 v).
Proof.
  intros v V. pose proof (abs16_bound v V) as A. unfold isInfHalf.
  assert (E : Z.land v 0x7C00 = Z.shiftl (Z.shiftr (abs16 v) 10) 10).
  { unfold half in V. change 0x7C00 with (Z.shiftl (Z.ones 5) 10). apply Z.bits_inj'. intros i I. rewrite Z.land_spec, !Z.shiftl_spec by lia. destruct (Z.lt_ge_cases i 10).
    - rewrite !(Z.testbit_neg_r _ (i - 10)) by lia. apply andb_false_r.
    - rewrite Z.shiftr_spec by lia. replace (i - 10 + 10) with i by lia. unfold abs16. destruct (Z.lt_ge_cases i 15).
      + rewrite Z.ones_spec_low by lia. rewrite Z.mod_pow2_bits_low by lia. apply andb_true_r.
      + rewrite Z.ones_spec_high by lia. rewrite Z.mod_pow2_bits_high by lia. apply andb_false_r. }
  rewrite E, Z.shiftl_mul_pow2, Z.shiftr_div_pow2 by lia.
  pose proof (Z.div_mod (abs16 v) (2 ^ 10) ltac:(lia)). pose proof (Z.mod_pos_bound (abs16 v) (2 ^ 10) ltac:(lia)).
  destruct (Z.leb_spec (31 * 2 ^ 10) (abs16 v)); [apply Z.eqb_eq | apply Z.eqb_neq]; lia.
Qed.

Lemma isInf_finite : forall v, half v -> (isInfHalf v = true <-> ~ finite16 v).
Proof. intros v V. rewrite land_exp16 by exact V. unfold finite16. rewrite Z.leb_le. lia. Qed.
