(** Conversion of audio samples: to floats and back, to wider integers and back, and whole frames. *)
From Coq Require Import ZArith QArith Lqa List Bool Lia.
From Coq Require Import SpecFloat.
From Verif Require Import Common AudioSpec Audio AudioLemmas Soft SoftLemmas SoftBounds SoftRound SoftNum SoftErr SoftAdd SoftVal ResampleSpec ResampleLemmas ConvertSpec Convert ConvertLemmas ConvertFacts.
Import ListNotations.
Open Scope Z_scope.

(** *** Floats *)
Lemma round24 : forall s M E, Zdigits2 (Z.pos M) = 53 -> binary_round 24 128 s M E = binary_round_aux 24 128 s (Z.pos M) E loc_Exact.
Proof.
  intros s M E D. unfold binary_round. pose proof (shl_align_spec M E (fexp 24 128 (Z.pos (digits2_pos M) + E))) as S. cbv zeta in S. change (Z.pos (digits2_pos M)) with (Zdigits2 (Z.pos M)) in *. rewrite D in *.
  assert (MN : Z.min E (fexp 24 128 (53 + E)) = E) by (unfold fexp; lia). rewrite MN in S. destruct (shl_align M E (fexp 24 128 (53 + E))) as (mz & ez). cbn [fst snd] in S. destruct S as (-> & S). rewrite Z.sub_diag, Z.pow_0_r, Z.mul_1_r in S. rewrite S. reflexivity.
Qed.
Lemma to32_exact : forall x n c, norm x -> V x = n * 2 ^ (c + sc) -> Z.abs n < 2 ^ 24 -> -149 <= c -> within (-1000) 128 x ->
  valid_binary 24 128 (to32 x) = true /\ isFin (to32 x) = true /\ V (to32 x) = V x.
Proof.
  intros [s|s| |s M E] n c N EV NB C W; try contradiction.
  - cbn. split; [reflexivity|]. split; reflexivity.
  - destruct N as (D & EE). cbn [within] in W. assert (SC : sc = 1074) by reflexivity. pose proof (digits53 M D) as MB. cbn [V] in EV.
    assert (AV : Z.pos M * 2 ^ (E + sc) = Z.abs n * 2 ^ (c + sc)). { apply (f_equal Z.abs) in EV. rewrite !Z.abs_mul, !(Z.abs_eq (2 ^ _)) in EV by (apply Z.lt_le_incl, pow_pos; lia). rewrite <- EV. f_equal. destruct s; reflexivity. }
    set (k := Z.max 29 (-149 - E)).
    assert (CE : E + 29 <= c). { destruct (Z_le_gt_dec (E + 29) c); [assumption|]. exfalso. assert (2 ^ (c + sc) <= 2 ^ (E + sc + 28)) by (apply Z.pow_le_mono_r; lia). rewrite (Z.pow_add_r 2 (E + sc) 28) in H by lia. pose proof (pow_pos (E + sc) ltac:(lia)). pose proof (pow_pos (c + sc) ltac:(lia)).
      assert (Z.pos M * 2 ^ (E + sc) < 2 ^ 24 * (2 ^ (E + sc) * 2 ^ 28)). { rewrite AV. apply Z.lt_le_trans with (2 ^ 24 * 2 ^ (c + sc)); [apply Z.mul_lt_mono_pos_r; lia|apply Z.mul_le_mono_nonneg_l; lia]. }
      assert (2 ^ 52 * 2 ^ (E + sc) <= Z.pos M * 2 ^ (E + sc)) by (apply Z.mul_le_mono_nonneg_r; lia). change (2 ^ 52) with (2 ^ 24 * 2 ^ 28) in *. lia. }
    assert (MQ : Z.pos M = Z.abs n * 2 ^ (c - E)). { apply Z.mul_reg_r with (2 ^ (E + sc)); [pose proof (pow_pos (E + sc)); lia|]. rewrite AV, <- Z.mul_assoc, <- Z.pow_add_r by lia. do 2 f_equal. lia. }
    assert (KC : 0 <= k <= c - E) by (unfold k; lia). set (q := Z.abs n * 2 ^ (c - E - k)). assert (QM : Z.pos M = q * 2 ^ k) by (unfold q; rewrite <- Z.mul_assoc, <- Z.pow_add_r by lia; rewrite MQ; do 2 f_equal; lia).
    pose proof (pow_pos k ltac:(lia)) as PK. assert (QP : 0 < q). { apply Z.mul_pos_cancel_r with (2 ^ k); [exact PK|lia]. }
    assert (SB : shiftBy 24 128 (Z.pos M) E = k) by (unfold shiftBy; rewrite D; unfold SpecFloat.emin, k; lia).
    cbn [to32]. rewrite round24 by exact D. rewrite (round_aux_exact 24 128 ltac:(lia)); rewrite ?SB; [|lia|exists q; exact QM|unfold k; lia].
    assert (DV : Z.pos M / 2 ^ k = q) by (rewrite QM; apply Z.div_mul; lia). rewrite DV. destruct q as [|p|p] eqn:QQ; try lia. cbn [Z.to_pos].
    assert (DP : Zdigits2 (Z.pos p) = 53 - k) by (pose proof (Zdigits2_mul p k ltac:(lia)) as H; rewrite <- QM, D in H; lia).
    split; [|split; [reflexivity|]].
    + cbn [valid_binary]. unfold bounded, canonical_mantissa. change (Z.pos (digits2_pos p)) with (Zdigits2 (Z.pos p)). rewrite DP. apply andb_true_intro. split; [apply Zeq_is_eq_bool; unfold fexp, SpecFloat.emin, k; lia|apply Z.leb_le; unfold k; lia].
    + cbn [V]. replace (E + k + sc) with (k + (E + sc)) by lia. rewrite (Z.pow_add_r 2 k) by lia. replace (signed s (Z.pos M)) with (signed s (Z.pos p) * 2 ^ k) by (rewrite QM; destruct s; cbn [signed]; ring). ring.
Qed.
(** Two floats of the same value. *)
Lemma float_unique : forall s m e s' m' e', valid_binary 24 128 (S754_finite s m e) = true -> valid_binary 24 128 (S754_finite s' m' e') = true -> V (S754_finite s m e) = V (S754_finite s' m' e') ->
  S754_finite s m e = S754_finite s' m' e'.
Proof.
  intros s m e s' m' e' A B E. pose proof (valid32 s m e A) as (D & R). pose proof (valid32 s' m' e' B) as (D' & R'). assert (SC : sc = 1074) by reflexivity. cbn [V] in E.
  pose proof (V_sign m e ltac:(lia)) as P. pose proof (V_sign m' e' ltac:(lia)) as P'.
  assert (SE : s = s' /\ Z.pos m * 2 ^ (e + sc) = Z.pos m' * 2 ^ (e' + sc)) by (destruct s, s'; cbn [signed] in E; rewrite ?Z.mul_opp_l in E; (split; [try reflexivity; exfalso|]); lia). destruct SE as (-> & SE).
  assert (DE : Zdigits2 (Z.pos m) + e = Zdigits2 (Z.pos m') + e'). { apply (f_equal Zdigits2) in SE. rewrite !Zdigits2_mul in SE by lia. lia. }
  cbn [valid_binary] in A, B. unfold bounded, canonical_mantissa in A, B. apply andb_prop in A. apply andb_prop in B. destruct A as (A & _). destruct B as (B & _). apply Zeq_bool_eq in A. apply Zeq_bool_eq in B. change (Z.pos (digits2_pos m)) with (Zdigits2 (Z.pos m)) in A. change (Z.pos (digits2_pos m')) with (Zdigits2 (Z.pos m')) in B.
  assert (e = e') by congruence. subst e'. apply Z.mul_reg_r in SE; [|pose proof (pow_pos (e + sc)); lia]. congruence.
Qed.
(** The level of a float in units of 2^-1074. *)
Lemma level_V : forall f x, valid_binary 24 128 x = true -> numOf (Flt x) * 2 ^ sc = V x * denOf f (Flt x).
Proof.
  intros f [s|s| |s m e] H; try reflexivity. destruct (valid32 s m e H) as (D & E). cbn [numOf denOf V]. rewrite <- !Z.mul_assoc, <- !Z.pow_add_r by (unfold sc; lia). do 2 f_equal. lia.
Qed.
Theorem float_same : forall f g dt pos ch x, fmtOk f -> fmtOk g -> f_float f = true -> f_float g = true -> valid_binary 24 128 x = true -> convertSample f g dt pos ch (Flt x) = Ok (Flt x, false).
Proof.
  intros f g dt pos ch x F G FF GF H. assert (O : sampleOk f (Flt x)) by (split; assumption). unfold convertSample. rewrite GF. cbv zeta. destruct (isFin x) eqn:FX.
  - destruct (scaled_val f g (Flt x) F G O FX) as (N & _ & E). cbv zeta in N, E. pose proof (level_V f x H) as LV. unfold gridExp in E. rewrite GF, Z.pow_0_r, Z.mul_1_r, LV in E. pose proof (denOf_pos f (Flt x) F). apply Z.mul_reg_r in E; [|lia].
    destruct (mul_is f g F G) as (M & _). unfold scaleExp in M. rewrite FF, GF in M. cbn [asDouble] in *. destruct x as [s|s| |s m e]; try discriminate FX.
    + rewrite M. unfold mul64. cbn [to64 Z.add]. rewrite one_pow by lia. cbn [SFmul to32]. rewrite xorb_false_r. reflexivity.
    + destruct (valid32 s m e H) as (D & R). pose proof (digits2_bound m) as DB. change (Z.pos (digits2_pos m)) with (Zdigits2 (Z.pos m)) in DB. set (X := mul64 (to64 (S754_finite s m e)) (mul64 (formatToNorm f) (normToFormat g))) in *. clearbody X. cbn [V] in E.
      assert (WX : within (-1000) 128 X). { assert (SC : sc = 1074) by reflexivity. replace 128 with (127 + 1) by reflexivity. destruct X as [t|t| |t M' E']; try exact I. destruct N as (D' & R'). cbn [V] in E. cbn [within]. pose proof (digits53 M' D') as MB.
        apply (f_equal Z.abs) in E. rewrite !Z.abs_mul, !(Z.abs_eq (2 ^ _)) in E by (apply Z.lt_le_incl, pow_pos; lia). replace (Z.abs (signed t (Z.pos M'))) with (Z.pos M') in E by (destruct t; reflexivity). replace (Z.abs (signed s (Z.pos m))) with (Z.pos m) in E by (destruct s; reflexivity).
        apply (f_equal Zdigits2) in E. rewrite !Zdigits2_mul in E by lia. lia. }
      destruct (to32_exact X (signed s (Z.pos m)) e N E) as (V1 & V2 & V3); [| |exact WX|].
      * assert (2 ^ Zdigits2 (Z.pos m) <= 2 ^ 24) by (apply Z.pow_le_mono_r; lia). destruct s; cbn [signed]; lia.
      * lia.
      * rewrite E in V3. assert (SV : V (S754_finite s m e) = signed s (Z.pos m) * 2 ^ (e + sc)) by reflexivity. rewrite <- SV in V3. pose proof (V_sign m e ltac:(unfold sc; lia)) as VS.
        destruct (to32 X) as [t|t| |t m' e'] eqn:TX; try discriminate V2.
        -- exfalso. rewrite SV in V3. cbn [V] in V3. destruct s; cbn [signed] in V3; rewrite ?Z.mul_opp_l in V3; lia.
        -- do 3 f_equal. apply float_unique; assumption.
  - destruct (mul_is f g F G) as (M & _). unfold scaleExp in M. rewrite FF, GF in M. rewrite M. unfold mul64. cbn [asDouble Z.add]. rewrite one_pow by lia. destruct x as [s|s| |s m e]; try discriminate FX; cbn [to64 SFmul to32]; rewrite ?xorb_false_r; reflexivity.
Qed.
(** Integers become the float of the same level when 24 digits are enough. *)
Theorem int_to_float : forall f g dt pos ch v, fmtOk f -> fmtOk g -> f_float g = true -> sampleOk f (Int v) -> (exists n c, 0 <= c /\ Z.abs n < 2 ^ 24 /\ v = n * 2 ^ c) ->
  exists y, convertSample f g dt pos ch (Int v) = Ok (Flt y, false) /\ sampleOk g (Flt y) /\ isFin y = true /\ sameLevel f (Int v) g (Flt y).
Proof.
  intros f g dt pos ch v F G GF O (n & c & C & NB & EV). unfold convertSample. rewrite GF. cbv zeta. destruct (scaled_val f g (Int v) F G O I) as (N & _ & E). cbv zeta in N, E. set (X := mul64 _ _) in *. clearbody X. unfold gridExp in E. rewrite GF, Z.pow_0_r, Z.mul_1_r in E. cbn [numOf denOf] in E.
  destruct (pad_bound f F) as (B1 & B2 & B3 & B4). assert (SC : sc = 1074) by reflexivity. destruct O as (OF & O).
  assert (VX : V X = n * 2 ^ (c - (container f - 1) + sc)). { apply Z.mul_reg_r with (2 ^ (container f - 1)); [pose proof (pow_pos (container f - 1)); lia|]. rewrite E, EV, <- !Z.mul_assoc, <- !Z.pow_add_r by lia. do 2 f_equal. lia. }
  assert (WX : within (-1000) 128 X). { destruct (Z.eq_dec v 0) as [->|V0].
    - destruct X as [s|s| |s m e]; try exact I. exfalso. destruct N as (D & R). pose proof (V_sign m e ltac:(lia)). cbn [V] in E. pose proof (pow_pos (container f - 1) ltac:(lia)) as PF. assert (signed s (Z.pos m) * 2 ^ (e + sc) = 0). { apply Z.mul_reg_r with (2 ^ (container f - 1)); lia. } destruct s; cbn [signed] in *; rewrite ?Z.mul_opp_l in *; lia.
    - assert (W : within (- (container f - 1)) (0 + 1) X). { apply within_V; [exact N|lia|lia|]. pose proof (pow_pos (container f - 1) ltac:(lia)) as PF. pose proof sc_pos.
        assert (AB : Z.abs (V X) * 2 ^ (container f - 1) = Z.abs v * 2 ^ sc) by (rewrite <- (Z.abs_eq (2 ^ (container f - 1))), <- Z.abs_mul, E, Z.abs_mul, (Z.abs_eq (2 ^ sc)) by lia; reflexivity).
        split; apply Z.mul_le_mono_pos_r with (2 ^ (container f - 1)); try exact PF; rewrite AB.
        + rewrite <- Z.pow_add_r by lia. replace (- (container f - 1) + sc + (container f - 1)) with sc by lia. rewrite <- (Z.mul_1_l (2 ^ sc)) at 1. apply Z.mul_le_mono_nonneg_r; lia.
        + change (0 + sc) with sc. rewrite (Z.mul_comm (2 ^ sc)). apply Z.mul_le_mono_nonneg_r; lia. }
      destruct X; try exact I. cbn [within] in *. lia. }
  destruct (to32_exact X n (c - (container f - 1)) N VX NB ltac:(lia) WX) as (V1 & V2 & V3). exists (to32 X). split; [reflexivity|]. split; [split; assumption|]. split; [exact V2|].
  unfold sameLevel. change (numOf (Int v)) with v. change (denOf f (Int v)) with (2 ^ (container f - 1)). pose proof (level_V g (to32 X) V1) as LV. rewrite V3 in LV. apply Z.mul_reg_r with (2 ^ sc); [pose proof sc_pos; lia|].
  replace (numOf (Flt (to32 X)) * 2 ^ (container f - 1) * 2 ^ sc) with (numOf (Flt (to32 X)) * 2 ^ sc * 2 ^ (container f - 1)) by ring. rewrite LV. replace (V X * denOf g (Flt (to32 X)) * 2 ^ (container f - 1)) with (V X * 2 ^ (container f - 1) * denOf g (Flt (to32 X))) by ring. rewrite E. ring.
Qed.
(** All others become a float that differs by at most a part in 2^24. *)
Lemma near_Z24 : forall m e q e', - sc <= e -> - sc <= e' -> near (ulo 24) (uhi 24) (mg m e) (mg q e') ->
  Z.abs (Z.pos q * 2 ^ (e' + sc) - Z.pos m * 2 ^ (e + sc)) * 2 ^ 24 <= Z.pos m * 2 ^ (e + sc).
Proof.
  intros m e q e' E E' (N1 & N2). pose proof (tw_pos sc) as TP. pose proof (mg_scaled m e E) as S1. pose proof (mg_scaled q e' E') as S2.
  assert (U : (tw (-24) * inject_Z (2 ^ 24) == 1)%Q) by (vm_compute; reflexivity). assert (P24 : (0 < inject_Z (2 ^ 24))%Q) by (vm_compute; reflexivity).
  apply Qmult_le_r with (z := tw sc) in N1; [|exact TP]. apply Qmult_le_r with (z := tw sc) in N2; [|exact TP]. rewrite <- Qmult_assoc in N1. rewrite <- Qmult_assoc in N2. rewrite S1, S2 in N1, N2.
  set (M := Z.pos m * 2 ^ (e + sc)) in *. set (Q := Z.pos q * 2 ^ (e' + sc)) in *. clearbody M Q. unfold ulo, uhi in *. change (- (24)) with (-24) in *.
  apply Qmult_le_r with (z := inject_Z (2 ^ 24)) in N1; [|exact P24]. apply Qmult_le_r with (z := inject_Z (2 ^ 24)) in N2; [|exact P24].
  assert (A1 : (2 ^ 24 - 1) * M <= Q * 2 ^ 24). { apply inj_le_Z. rewrite !inject_Z_mult. eapply Qle_trans; [|exact N1]. apply Qle_lteq. right. setoid_replace ((1 - tw (-24)) * inject_Z M * inject_Z (2 ^ 24))%Q with ((inject_Z (2 ^ 24) - tw (-24) * inject_Z (2 ^ 24)) * inject_Z M)%Q by ring. rewrite U. reflexivity. }
  assert (A2 : Q * 2 ^ 24 <= (2 ^ 24 + 1) * M). { apply inj_le_Z. rewrite !inject_Z_mult. eapply Qle_trans; [exact N2|]. apply Qle_lteq. right. setoid_replace ((1 + tw (-24)) * inject_Z M * inject_Z (2 ^ 24))%Q with ((inject_Z (2 ^ 24) + tw (-24) * inject_Z (2 ^ 24)) * inject_Z M)%Q by ring. rewrite U. reflexivity. }
  lia.
Qed.
Theorem int_near_float : forall f g dt pos ch v, fmtOk f -> fmtOk g -> f_float g = true -> sampleOk f (Int v) ->
  exists y, convertSample f g dt pos ch (Int v) = Ok (Flt y, false) /\ sampleOk g (Flt y) /\ isFin y = true /\ nearLevel f (Int v) g (Flt y).
Proof.
  intros f g dt pos ch v F G GF O. destruct (Z.eq_dec v 0) as [->|V0].
  { destruct (int_to_float f g dt pos ch 0 F G GF O) as (y & E & OY & FY & L); [exists 0, 0; split; [lia|]; split; [reflexivity|reflexivity]|]. exists y. split; [exact E|]. split; [exact OY|]. split; [exact FY|]. unfold nearLevel. unfold sameLevel in L. rewrite L, Z.sub_diag. change (numOf (Int 0)) with 0. reflexivity. }
  unfold convertSample. rewrite GF. cbv zeta. destruct (scaled_val f g (Int v) F G O I) as (N & _ & E). cbv zeta in N, E. set (X := mul64 _ _) in *. clearbody X. unfold gridExp in E. rewrite GF, Z.pow_0_r, Z.mul_1_r in E. cbn [numOf denOf] in E.
  destruct (pad_bound f F) as (B1 & B2 & B3 & B4). assert (SC : sc = 1074) by reflexivity. destruct O as (OF & O).
  assert (W : within (- (container f - 1)) (0 + 1) X). { apply within_V; [exact N|lia|lia|]. pose proof (pow_pos (container f - 1) ltac:(lia)) as PF. pose proof sc_pos.
    assert (AB : Z.abs (V X) * 2 ^ (container f - 1) = Z.abs v * 2 ^ sc) by (rewrite <- (Z.abs_eq (2 ^ (container f - 1))), <- Z.abs_mul, E, Z.abs_mul, (Z.abs_eq (2 ^ sc)) by lia; reflexivity).
    split; apply Z.mul_le_mono_pos_r with (2 ^ (container f - 1)); try exact PF; rewrite AB.
    + rewrite <- Z.pow_add_r by lia. replace (- (container f - 1) + sc + (container f - 1)) with sc by lia. rewrite <- (Z.mul_1_l (2 ^ sc)) at 1. apply Z.mul_le_mono_nonneg_r; lia.
    + change (0 + sc) with sc. rewrite (Z.mul_comm (2 ^ sc)). apply Z.mul_le_mono_nonneg_r; lia. }
  destruct X as [s|s| |s m e]; try contradiction.
  { exfalso. cbn [V] in E. assert (v * 2 ^ sc <> 0) by (apply Z.neq_mul_0; pose proof sc_pos; lia). lia. }
  destruct N as (D & R). cbn [within] in W. cbn [to32]. destruct (round_rel 24 128 ltac:(lia) s m e) as (q & e' & RR & DQ & EE & NR); [rewrite D; unfold SpecFloat.emin; lia|rewrite D; lia|]. rewrite D in EE. rewrite RR.
  exists (S754_finite s q e'). split; [reflexivity|].
  assert (VB : valid_binary 24 128 (S754_finite s q e') = true). { cbn [valid_binary]. unfold bounded, canonical_mantissa. change (Z.pos (digits2_pos q)) with (Zdigits2 (Z.pos q)). rewrite DQ. apply andb_true_intro. split; [apply Zeq_is_eq_bool; unfold fexp, SpecFloat.emin; lia|apply Z.leb_le; lia]. }
  split; [split; [exact GF|exact VB]|]. split; [reflexivity|].
  pose proof (near_Z24 m e q e' ltac:(lia) ltac:(lia) NR) as NZ. clear NR RR. pose proof (level_V g _ VB) as LV. unfold nearLevel. change (numOf (Int v)) with v. change (denOf f (Int v)) with (2 ^ (container f - 1)). pose proof (denOf_pos g (Flt (S754_finite s q e')) G) as DP. set (y := Flt (S754_finite s q e')) in *. set (dy := denOf g y) in *. set (ny := numOf y) in *. clearbody dy ny. clear y.
  pose proof sc_pos as SP. pose proof (pow_pos (container f - 1) ltac:(lia)) as PC. set (P := 2 ^ (container f - 1)) in *. set (u := 2 ^ sc) in *. cbn [V] in E, LV.
  set (a := signed s (Z.pos m) * 2 ^ (e + sc)) in *. set (b := signed s (Z.pos q) * 2 ^ (e' + sc)) in *.
  assert (NA : Z.abs (b - a) * 2 ^ 24 <= Z.abs a). { unfold a, b. pose proof (V_sign m e ltac:(lia)). pose proof (V_sign q e' ltac:(lia)). destruct s; cbn [signed]; rewrite ?Z.mul_opp_l; lia. }
  clearbody a b P u. clear NZ. apply Z.mul_le_mono_pos_r with u; [exact SP|].
  replace (2 ^ 24 * Z.abs (v * dy - ny * P) * u) with (2 ^ 24 * (Z.abs (v * dy - ny * P) * Z.abs u)) by (rewrite (Z.abs_eq u) by lia; ring). rewrite <- Z.abs_mul. replace ((v * dy - ny * P) * u) with (v * u * dy - ny * u * P) by ring. rewrite <- E, LV.
  replace (Z.abs v * dy * u) with (Z.abs v * Z.abs u * dy) by (rewrite (Z.abs_eq u) by lia; ring). rewrite <- Z.abs_mul, <- E. replace (a * P * dy - b * dy * P) with ((a - b) * (P * dy)) by ring. assert (PD : 0 < P * dy) by (apply Z.mul_pos_pos; lia).
  rewrite (Z.abs_mul (a - b) (P * dy)), (Z.abs_mul a P), (Z.abs_eq (P * dy)), (Z.abs_eq P) by lia. replace (2 ^ 24 * (Z.abs (a - b) * (P * dy))) with (Z.abs (a - b) * 2 ^ 24 * (P * dy)) by ring. replace (Z.abs a * P * dy) with (Z.abs a * (P * dy)) by ring. apply Z.mul_le_mono_nonneg_r; lia.
Qed.
(** *** Round trips *)
Lemma aligned_step : forall f v, fmtOk f -> sampleOk f (Int v) -> aligned f (Int v) -> exists w, v = w * 2 ^ (container f - f_bits f) /\ - 2 ^ (f_bits f - 1) <= w < 2 ^ (f_bits f - 1).
Proof.
  intros f v F (_ & O) (w & ->). exists w. split; [reflexivity|]. destruct (pad_bound f F) as (B1 & B2 & B3 & B4). pose proof (pow_pos (container f - f_bits f) ltac:(lia)) as P. replace (container f - 1) with (f_bits f - 1 + (container f - f_bits f)) in O by lia. rewrite Z.pow_add_r in O by lia. rewrite <- Z.mul_opp_l in O. split.
  - apply Z.mul_le_mono_pos_r with (2 ^ (container f - f_bits f)); lia.
  - apply Z.mul_lt_mono_pos_r with (2 ^ (container f - f_bits f)); lia.
Qed.
Lemma stored_within : forall g k, - 2 ^ (f_bits g - 1) <= k < 2 ^ (f_bits g - 1) -> storedStep g k = (Int (k * 2 ^ (container g - f_bits g)), false).
Proof. intros g k R. unfold storedStep, limit. rewrite Z.min_r, Z.max_r by lia. rewrite Z.eqb_refl. reflexivity. Qed.
Theorem float_round_trip : forall f g dt pos ch pos' ch' v, fmtOk f -> fmtOk g -> f_float g = true -> f_bits f <= 24 -> sampleOk f (Int v) -> aligned f (Int v) ->
  exists y, convertSample f g dt pos ch (Int v) = Ok (y, false) /\ convertSample g f DNone pos' ch' y = Ok (Int v, false).
Proof.
  intros f g dt pos ch pos' ch' v F G GF B24 O A. destruct (aligned_step f v F O A) as (w & -> & WB). destruct (pad_bound f F) as (B1 & B2 & B3 & B4).
  assert (P24 : 2 ^ (f_bits f - 1) <= 2 ^ 23) by (apply Z.pow_le_mono_r; lia).
  destruct (int_to_float f g dt pos ch _ F G GF O) as (y & E & OY & FY & L). { exists w, (container f - f_bits f). split; [lia|]. split; [change (2 ^ 23) with 8388608 in P24; change (2 ^ 24) with 16777216; lia|reflexivity]. }
  exists (Flt y). split; [exact E|]. destruct O as (OF & O). rewrite exact_step; try assumption.
  - f_equal. replace (nearest g f (Flt y)) with w; [apply stored_within; exact WB|]. symmetry. unfold nearest. pose proof (denOf_pos g (Flt y) G) as DP. unfold sameLevel in L. change (numOf (Int (w * 2 ^ (container f - f_bits f)))) with (w * 2 ^ (container f - f_bits f)) in L. change (denOf f (Int (w * 2 ^ (container f - f_bits f)))) with (2 ^ (container f - 1)) in L.
    rewrite (rnd_cross _ _ (w * 1) 1); [apply rnd_int; lia|exact DP|lia|]. rewrite !Z.mul_1_r. pose proof (pow_pos (container f - 1) ltac:(lia)) as PC. apply Z.mul_reg_r with (2 ^ (container f - 1)); [lia|].
    replace (numOf (Flt y) * 2 ^ (f_bits f - 1) * 2 ^ (container f - 1)) with (numOf (Flt y) * 2 ^ (container f - 1) * 2 ^ (f_bits f - 1)) by ring. rewrite <- L.
    replace (w * 2 ^ (container f - f_bits f) * denOf g (Flt y) * 2 ^ (f_bits f - 1)) with (w * denOf g (Flt y) * (2 ^ (container f - f_bits f) * 2 ^ (f_bits f - 1))) by ring. rewrite <- Z.pow_add_r by lia. f_equal. f_equal. lia.
  - unfold resolveDither. destruct (needsDither g f); reflexivity.
Qed.
Theorem widen_exact : forall f g dt pos ch v, fmtOk f -> fmtOk g -> f_float g = false -> f_bits f <= f_bits g -> sampleOk f (Int v) -> aligned f (Int v) ->
  exists y, convertSample f g dt pos ch (Int v) = Ok (Int y, false) /\ sampleOk g (Int y) /\ aligned g (Int y) /\ sameLevel f (Int v) g (Int y) /\ forall pos' ch', convertSample g f DNone pos' ch' (Int y) = Ok (Int v, false).
Proof.
  intros f g dt pos ch v F G GF B O A. destruct (aligned_step f v F O A) as (w & -> & WB). pose proof O as (OF & OR). destruct (pad_bound f F) as (B1 & B2 & B3 & B4). destruct (pad_bound g G) as (C1 & C2 & C3 & C4).
  pose proof (pow_pos (f_bits g - f_bits f) ltac:(lia)) as PD. set (k := w * 2 ^ (f_bits g - f_bits f)).
  assert (KB : - 2 ^ (f_bits g - 1) <= k < 2 ^ (f_bits g - 1)). { replace (f_bits g - 1) with (f_bits f - 1 + (f_bits g - f_bits f)) by lia. rewrite Z.pow_add_r by lia. rewrite <- Z.mul_opp_l. unfold k. split; [apply Z.mul_le_mono_nonneg_r|apply Z.mul_lt_mono_pos_r]; lia. }
  assert (E : convertSample f g dt pos ch (Int (w * 2 ^ (container f - f_bits f))) = Ok (Int (k * 2 ^ (container g - f_bits g)), false)).
  { rewrite exact_step; try assumption; [|exact I|].
    - f_equal. replace (nearest f g _) with k; [apply stored_within; exact KB|]. symmetry. unfold nearest. cbn [numOf denOf]. rewrite (rnd_cross _ _ (k * 1) 1); [apply rnd_int; lia|apply pow_pos; lia|lia|]. unfold k. rewrite !Z.mul_1_r, <- !Z.mul_assoc, <- !Z.pow_add_r by lia. do 2 f_equal. lia.
    - unfold resolveDither, needsDither. rewrite GF, OF. destruct (Z.ltb_spec (f_bits g) (f_bits f)); [lia|reflexivity]. }
  assert (OG : sampleOk g (Int (k * 2 ^ (container g - f_bits g)))). { split; [exact GF|]. pose proof (pow_pos (container g - f_bits g) ltac:(lia)). replace (container g - 1) with (f_bits g - 1 + (container g - f_bits g)) by lia. rewrite Z.pow_add_r by lia. rewrite <- Z.mul_opp_l. split; [apply Z.mul_le_mono_nonneg_r|apply Z.mul_lt_mono_pos_r]; lia. }
  exists (k * 2 ^ (container g - f_bits g)). split; [exact E|]. split; [exact OG|]. split; [exists k; reflexivity|]. split.
  - unfold sameLevel. cbn [numOf denOf]. unfold k. rewrite <- !Z.mul_assoc, <- !Z.pow_add_r by lia. do 2 f_equal. lia.
  - intros pos' ch'. rewrite exact_step; try assumption; [|exact I|].
    + f_equal. replace (nearest g f _) with w; [apply stored_within; exact WB|]. symmetry. unfold nearest. cbn [numOf denOf]. rewrite (rnd_cross _ _ (w * 1) 1); [apply rnd_int; lia|apply pow_pos; lia|lia|]. unfold k. rewrite !Z.mul_1_r, <- !Z.mul_assoc, <- !Z.pow_add_r by lia. do 2 f_equal. lia.
    + unfold resolveDither. destruct (needsDither g f); reflexivity.
Qed.
Theorem float32_trip_lossy : exists v, sampleOk (mkFmt false 32 4) (Int v) /\
  exists y, convertSample (mkFmt false 32 4) (mkFmt true 32 4) DNone 0 0 (Int v) = Ok (y, false) /\ exists v' b, convertSample (mkFmt true 32 4) (mkFmt false 32 4) DNone 0 0 y = Ok (Int v', b) /\ v' <> v.
Proof.
  exists 16777217. split; [split; [reflexivity|]; cbn; lia|]. eexists. split; [vm_compute; reflexivity|]. exists 16777216, false. split; [vm_compute; reflexivity|lia].
Qed.

(** *** Frames *)
Lemma inOrder_eq : forall {A B} (f g : A -> outcome B) l, (forall x, In x l -> f x = g x) -> inOrder f l = inOrder g l.
Proof. intros A B f g l; induction l as [|x l IH]; intros H; [reflexivity|]. cbn [inOrder]. rewrite (H x (or_introl eq_refl)). destruct (g x); cbn [obind]; try reflexivity. rewrite IH; [reflexivity|]. intros y Y. apply H. right. exact Y. Qed.
Theorem frame_converted : forall f g dt ovf channels c N s, serves c N s -> forall n, 0 <= n -> AFS * n < N ->
  convertFrame f g dt ovf channels c n = convertedFrame (convertSample f g dt) s N channels ovf n.
Proof.
  intros f g dt ovf channels c N s (S1 & S2 & S3 & S4) n N0 NL. unfold framesFor in S3. change AFS with 3072 in *. change INT_MAX with 2147483647 in *. assert (NF : 0 <= n < c_frames c) by lia.
  unfold convertFrame. rewrite requests_ok. 2:{ intros i k [E|[]]. injection E as <- <-. exists c. split; [reflexivity|exact NF]. }
  cbn [obind]. unfold convertReady. rewrite (getFilter_ok [c] _ 0 n c eq_refl NF) by (left; reflexivity). destruct (S4 n NF) as (fr & E & (H1 & H2 & H3)). change AFS with 3072 in *. rewrite E. cbn [obind].
  assert (W : wrap64 (n * 3072) = n * 3072) by (apply wrap64_id; unfold in_int64, INT64_MIN, INT64_MAX; lia). rewrite W. unfold convertedFrame. rewrite H1. change AFS with 3072. f_equal. apply inOrder_eq. intros ch _. f_equal. apply inOrder_eq. intros i I. apply In_zseq in I. rewrite <- H1 in I. destruct (H3 i I) as (a & A1 & A2). rewrite A1. unfold convertedAt. rewrite A2. f_equal. rewrite wrap64_id by (unfold in_int64, INT64_MIN, INT64_MAX; lia). lia.
Qed.
