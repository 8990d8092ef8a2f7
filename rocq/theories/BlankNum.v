(** Pixel values of doubles. *)
From Coq Require Import ZArith List Lia Bool.
From Coq Require Import SpecFloat.
From Verif Require Import Common FormatSpec Soft SoftLemmas SoftBounds SoftRound SoftNum HalfSpec Half HalfLemmas Blank.
Import ListNotations.
Open Scope Z_scope.

(** m * 2^e at most B / 2: so is the rounded value, as long as its unit is at most 1/2. *)
Lemma round_aux_le64 : forall s m e B, 0 <= m -> e <= -1 -> m <= B * 2 ^ (-1 - e) -> m < 2 ^ (51 - e) -> 0 <= B ->
  match binary_round_aux 53 1024 s m e loc_Exact with
  | S754_zero s' => s' = s
  | S754_finite s' m' e' => s' = s /\ e' <= -1 /\ Z.pos m' <= B * 2 ^ (-1 - e')
  | _ => False
  end.
Proof.
  intros s m e B M E MB SM B0. unfold binary_round_aux.
  pose proof (shr_fexp_exp 53 1024 m e loc_Exact) as X1. pose proof (shr_fexp_bound 53 1024 ltac:(lia) m e loc_Exact M) as L1. cbv zeta in L1.
  unfold shr_fexp in *.
  set (n1 := fexp 53 1024 (Zdigits2 m + e) - e) in *.
  pose proof (shr_keeps m e n1 M) as K1. destruct (shr (shr_record_of_loc m loc_Exact) e n1) as (r1 & e1) eqn:S1. cbn [fst snd] in *.
  pose proof (Zdigits2_le m (51 - e) ltac:(lia) ltac:(lia)) as D1.
  pose proof (shr_exp (shr_record_of_loc m loc_Exact) e n1) as SE. rewrite S1 in SE. cbn [snd] in SE.
  unfold emin, SpecFloat.emin in X1.
  assert (E1 : e <= e1 <= -1) by lia.
  destruct K1 as (K10 & K11 & _ & K12).
  assert (U1 : shr_m r1 <= B * 2 ^ (-1 - e1) /\ (shr_r r1 || shr_s r1 = true -> shr_m r1 + 1 <= B * 2 ^ (-1 - e1))).
  { assert (P1 : 0 < 2 ^ (e1 - e)) by (apply Z.pow_pos_nonneg; lia).
    assert (PQ : 2 ^ (-1 - e) = 2 ^ (-1 - e1) * 2 ^ (e1 - e)) by (rewrite <- Z.pow_add_r by lia; f_equal; lia).
    replace (Z.max 0 n1) with (e1 - e) in * by lia. rewrite PQ, Z.mul_assoc in MB. split.
    - apply Z.mul_le_mono_pos_r with (2 ^ (e1 - e)); lia.
    - intros Q. specialize (K12 Q). assert (shr_m r1 < B * 2 ^ (-1 - e1)) by (apply Z.mul_lt_mono_pos_r with (2 ^ (e1 - e)); lia). lia. }
  set (m1 := round_nearest_even (shr_m r1) (loc_of_shr_record r1)).
  assert (M1 : 0 <= m1 <= B * 2 ^ (-1 - e1) /\ m1 <= shr_m r1 + 1).
  { split; [split; [apply rne_nonneg; lia|] |apply rne_up; lia]. unfold m1. destruct (rne_inexact r1) as [->|(Q & ->)]; [tauto | apply U1; exact Q]. }
  pose proof (shr_fexp_exp 53 1024 m1 e1 loc_Exact) as X2. unfold shr_fexp in X2.
  set (n2 := fexp 53 1024 (Zdigits2 m1 + e1) - e1) in *.
  pose proof (shr_keeps m1 e1 n2 ltac:(lia)) as K2. pose proof (shr_exp (shr_record_of_loc m1 loc_Exact) e1 n2) as SE2.
  destruct (shr (shr_record_of_loc m1 loc_Exact) e1 n2) as (r2 & e2). cbn [fst snd] in *. destruct K2 as (K20 & K21 & _ & _).
  assert (D2 : 0 <= Zdigits2 m1 <= 54) by (apply Zdigits2_le; lia).
  unfold emin, SpecFloat.emin in X2.
  assert (E2 : e1 <= e2 <= e1 + 1) by lia.
  destruct (shr_m r2) as [|q|q] eqn:Q; [reflexivity| |lia].
  destruct (Z.leb_spec e2 (1024 - 53)); [|lia]. split; [reflexivity|].
  assert (E2' : e2 <= -1).
  { (* the value is below 2^51 *)
    assert (Q1 : shr_m r1 < 2 ^ (51 - e1)).
    { assert (P1 : 0 < 2 ^ (e1 - e)) by (apply Z.pow_pos_nonneg; lia).
      assert (PQ : 2 ^ (51 - e) = 2 ^ (51 - e1) * 2 ^ (e1 - e)) by (rewrite <- Z.pow_add_r by lia; f_equal; lia).
      replace (Z.max 0 n1) with (e1 - e) in * by lia. apply Z.mul_lt_mono_pos_r with (2 ^ (e1 - e)); lia. }
    assert (Q2 : 2 ^ (52 - e1) = 2 ^ (51 - e1) * 2) by (replace (52 - e1) with (51 - e1 + 1) by lia; rewrite Z.pow_add_r by lia; reflexivity).
    assert (Q3 : 0 < 2 ^ (51 - e1)) by (apply Z.pow_pos_nonneg; lia).
    assert (D3 : 0 <= Zdigits2 m1 <= 52 - e1) by (apply Zdigits2_le; lia). lia. }
  split; [exact E2'|].
  assert (P1 : 0 < 2 ^ (e2 - e1)) by (apply Z.pow_pos_nonneg; lia).
  assert (PQ : 2 ^ (-1 - e1) = 2 ^ (-1 - e2) * 2 ^ (e2 - e1)) by (rewrite <- Z.pow_add_r by lia; f_equal; lia).
  replace (Z.max 0 n2) with (e2 - e1) in * by lia. destruct M1 as ((_ & M1) & _). rewrite PQ, Z.mul_assoc in M1.
  apply Z.mul_le_mono_pos_r with (2 ^ (e2 - e1)); lia.
Qed.
(** Sums of non-negative numbers below a representable bound. *)
Lemma round_le64 : forall m e B, e <= -1 -> Z.pos m <= B * 2 ^ (-1 - e) -> Z.pos m < 2 ^ (51 - e) -> 0 <= B ->
  match binary_round 53 1024 false m e with
  | S754_zero s' => s' = false
  | S754_finite s' m' e' => s' = false /\ e' <= -1 /\ Z.pos m' <= B * 2 ^ (-1 - e')
  | _ => False
  end.
Proof.
  intros m e B E MB ML B0. unfold binary_round. pose proof (shl_align_spec m e (fexp 53 1024 (Z.pos (digits2_pos m) + e))) as S. cbv zeta in S. destruct S as (S1 & S2).
  destruct (shl_align m e _) as (mz & ez). cbn [fst snd] in *. set (f := fexp 53 1024 (Z.pos (digits2_pos m) + e)) in *. assert (EZ : ez <= e) by lia. rewrite <- S1 in S2.
  assert (P : 0 < 2 ^ (e - ez)) by (apply Z.pow_pos_nonneg; lia).
  apply round_aux_le64; try lia.
  - rewrite S2. replace (2 ^ (-1 - ez)) with (2 ^ (-1 - e) * 2 ^ (e - ez)) by (rewrite <- Z.pow_add_r by lia; f_equal; lia). rewrite Z.mul_assoc. apply Z.mul_le_mono_nonneg_r; lia.
  - rewrite S2. replace (2 ^ (51 - ez)) with (2 ^ (51 - e) * 2 ^ (e - ez)) by (rewrite <- Z.pow_add_r by lia; f_equal; lia). apply Z.mul_lt_mono_pos_r; lia.
Qed.
Definition valid64 (v : fl) : Prop := valid_binary 53 1024 v = true.
Lemma valid_digits : forall s m e, valid64 (S754_finite s m e) -> Z.pos m < 2 ^ 53.
Proof.
  intros s m e V. unfold valid64 in V. cbn [valid_binary] in V. unfold bounded in V. apply andb_true_iff in V. destruct V as (V & _). unfold canonical_mantissa in V. apply Zeq_bool_eq in V. unfold fexp in V.
  change (Z.pos (digits2_pos m)) with (Zdigits2 (Z.pos m)) in V. destruct (Zdigits2_bound (Z.pos m) ltac:(lia)) as (_ & D). apply Z.lt_le_trans with (1 := D). apply Z.pow_le_mono_r; lia.
Qed.
Lemma below_max : forall m e, valid64 (S754_finite false m e) -> SFltb uint32Max (S754_finite false m e) = false -> e <= -21 /\ Z.pos m <= 4294967295 * 2 ^ (- e).
Proof.
  intros m e V C. pose proof (valid_digits _ _ _ V) as D. clear V. change uint32Max with (S754_finite false 9007199252643840 (-21)) in C. unfold SFltb in C. cbn [SFcompare] in C.
  destruct (Z.compare_spec (-21) e) as [Q|Q|Q].
  - subst e. split; [lia|]. change (- -21) with 21. destruct (Pos.compare_cont Eq 9007199252643840 m) eqn:PC; try discriminate.
    + apply Pos.compare_eq in PC. subst m. change (4294967295 * 2 ^ 21) with 9007199252643840. apply Z.le_refl.
    + apply Pos.compare_gt_iff in PC. change (4294967295 * 2 ^ 21) with 9007199252643840. clear C D. apply Pos2Z.pos_lt_pos in PC. apply Z.lt_le_incl. exact PC.
  - discriminate.
  - split; [lia|]. apply Z.le_trans with (2 ^ 53); [lia|]. assert (2 ^ 22 <= 2 ^ (- e)) by (apply Z.pow_le_mono_r; lia). change (2 ^ 22) with 4194304 in *. change (2 ^ 53) with 9007199254740992. lia.
Qed.
Lemma half_is : of64 1 (-1) = S754_finite false (2 ^ 52) (-53).
Proof. reflexivity. Qed.
Lemma uint32_total : forall v, valid64 v -> isFin v = true -> SFltb v (S754_zero false) = false -> exists i, doubleToUInt32S v = Ok i /\ 0 <= i < 2 ^ 32.
Proof.
  intros v V F N. unfold doubleToUInt32S. rewrite N. destruct (SFltb uint32Max v) eqn:MX; [exists 4294967295; split; [reflexivity|lia]|].
  destruct v as [s| | |s m e]; try discriminate; [exists 0; split; [|lia]; destruct s; reflexivity|]. destruct s; [unfold SFltb in N; discriminate|].
  destruct (below_max m e V MX) as (E & MB). rewrite half_is. unfold add64. cbn [SFadd]. set (ez := Z.min e (-53)).
  pose proof (shl_align_spec m e ez) as A. pose proof (shl_align_spec (2 ^ 52) (-53) ez) as H. cbv zeta in A, H. destruct A as (_ & A). destruct H as (_ & H).
  rewrite (Z.min_r e ez) in A by lia. rewrite (Z.min_r (-53) ez) in H by lia. cbn [cond_Zopp]. rewrite A, H. change (Z.pos (2 ^ 52)) with (2 ^ 52).
  assert (PE : 0 < 2 ^ (e - ez)) by (apply Z.pow_pos_nonneg; lia). assert (PH : 0 < 2 ^ (-53 - ez)) by (apply Z.pow_pos_nonneg; lia).
  assert (MM : Z.pos m * 2 ^ (e - ez) + 2 ^ 52 * 2 ^ (-53 - ez) <= 8589934591 * 2 ^ (-1 - ez)).
  { replace (2 ^ 52 * 2 ^ (-53 - ez)) with (2 ^ (-1 - ez)) by (rewrite <- Z.pow_add_r by lia; f_equal; lia).
    assert (Z.pos m * 2 ^ (e - ez) <= 4294967295 * 2 ^ (- e) * 2 ^ (e - ez)) by (apply Z.mul_le_mono_nonneg_r; lia).
    rewrite <- Z.mul_assoc, <- Z.pow_add_r in H0 by lia. replace (- e + (e - ez)) with (1 + (-1 - ez)) in H0 by lia. rewrite Z.pow_add_r in H0 by lia. change (2 ^ 1) with 2 in H0. lia. }
  destruct (Z.pos m * 2 ^ (e - ez) + 2 ^ 52 * 2 ^ (-53 - ez)) as [|M|M] eqn:ME; [lia| |lia]. cbn [binary_normalize].
  assert (ML : Z.pos M < 2 ^ (51 - ez)).
  { apply Z.le_lt_trans with (1 := MM). replace (51 - ez) with (52 + (-1 - ez)) by lia. rewrite Z.pow_add_r by lia. apply Z.mul_lt_mono_pos_r; [apply Z.pow_pos_nonneg; lia|]. cbn. lia. }
  pose proof (round_le64 M ez 8589934591 ltac:(lia) MM ML ltac:(lia)) as R. destruct (binary_round 53 1024 false M ez) as [s| | |s m' e']; try destruct R; [exists 0; split; [reflexivity|lia]|].
  subst s. destruct H1 as (E' & R). unfold truncInt64, mag_trunc. cbn [signed]. destruct (Z.leb_spec 0 e'); [lia|].
  assert (P2 : 0 < 2 ^ (- e')) by (apply Z.pow_pos_nonneg; lia). assert (DB : 0 <= Z.pos m' / 2 ^ (- e') < 2 ^ 32).
  { split; [apply Z.div_pos; lia|]. apply Z.div_lt_upper_bound; [lia|]. apply Z.le_lt_trans with (1 := R). replace (2 ^ (- e')) with (2 * 2 ^ (-1 - e')) by (replace (- e') with (1 + (-1 - e')) by lia; rewrite Z.pow_add_r by lia; reflexivity).
    assert (0 < 2 ^ (-1 - e')) by (apply Z.pow_pos_nonneg; lia). change (2 ^ 32) with 4294967296. lia. }
  exists (Z.pos m' / 2 ^ (- e')). replace (in_int64b (Z.pos m' / 2 ^ (- e'))) with true.
  2:{ symmetry. apply in_int64b_spec. unfold in_int64, INT64_MIN, INT64_MAX. change (2 ^ 32) with 4294967296 in DB. lia. }
  cbn [obind]. destruct (Z.leb_spec 0 (Z.pos m' / 2 ^ (- e'))); [|lia]. destruct (Z.ltb_spec (Z.pos m' / 2 ^ (- e')) (2 ^ 32)); [|lia]. split; [reflexivity|exact DB].
Qed.

(** Integers are kept. *)
Lemma digits32 : forall p, Z.pos p < 4294967296 -> 1 <= Zdigits2 (Z.pos p) <= 32.
Proof. intros p B. split; [cbn; lia|]. apply Zdigits2_le; [lia|]. change (2 ^ 32) with 4294967296. lia. Qed.

Lemma num_is32 : forall p, Z.pos p < 4294967296 -> let d := Zdigits2 (Z.pos p) in
  num (Z.pos p) = S754_finite false (Z.to_pos (Z.pos p * 2 ^ (53 - d))) (d - 53).
Proof.
  intros p B d. pose proof (digits32 p B) as D. fold d in D. unfold num, of64. cbn [binary_normalize].
  rewrite (round_exact 53 1024 ltac:(lia)); fold d; [|lia| unfold SpecFloat.emin; lia | lia]. f_equal; lia.
Qed.

Lemma num_exact32 : forall v, 0 <= v < 4294967296 -> roundUp (num v) = Ok v.
Proof.
  intros v V. destruct v as [|p|p]; [reflexivity| |lia]. rewrite num_is32 by lia. pose proof (digits32 p ltac:(lia)) as D. set (d := Zdigits2 (Z.pos p)) in *.
  unfold roundUp, add64. change (of64 1 (-1)) with (S754_finite false (2 ^ 52) (-53)). cbn [SFadd].
  rewrite Z.min_r by lia.
  pose proof (shl_align_spec (Z.to_pos (Z.pos p * 2 ^ (53 - d))) (d - 53) (-53)) as S. cbv zeta in S. destruct S as (_ & S). rewrite Z.min_r in S by lia.
  rewrite Z2Pos.id in S by (apply Z.mul_pos_pos; [lia | apply Z.pow_pos_nonneg; lia]).
  rewrite <- Z.mul_assoc, <- Z.pow_add_r in S by lia. replace (53 - d + (d - 53 - -53)) with 53 in S by lia.
  cbn [cond_Zopp]. rewrite S. change (Z.pos (fst (shl_align (2 ^ 52) (-53) (-53)))) with (2 ^ 52).
  replace (Z.pos p * 2 ^ 53 + 2 ^ 52) with ((2 * Z.pos p + 1) * 2 ^ 52) by (change (2 ^ 53) with (2 * 2 ^ 52); ring).
  destruct ((2 * Z.pos p + 1) * 2 ^ 52) as [|M|M] eqn:ME; [lia| |lia]. cbn [binary_normalize]. unfold binary_round.
  assert (DM : Zdigits2 (Z.pos M) = Zdigits2 (2 * Z.pos p + 1) + 52) by (rewrite <- ME; change (2 * Z.pos p + 1) with (Z.pos (p~1)); apply Zdigits2_mul; lia).
  assert (D2 : 1 <= Zdigits2 (2 * Z.pos p + 1) <= 33).
  { split; [cbn; lia|]. apply Zdigits2_le; [lia|]. change (2 ^ 33) with 8589934592. lia. }
  pose proof (shl_align_spec M (-53) (fexp 53 1024 (Z.pos (digits2_pos M) + -53))) as T. cbv zeta in T. destruct T as (T1 & T2).
  change (Z.pos (digits2_pos M)) with (Zdigits2 (Z.pos M)) in *.
  assert (FE : fexp 53 1024 (Zdigits2 (Z.pos M) + -53) = Zdigits2 (2 * Z.pos p + 1) - 54) by (unfold fexp, SpecFloat.emin; lia). rewrite FE in *.
  destruct (shl_align M (-53) _) as (mz & ez). cbn [fst snd] in *. rewrite Z.min_l in T1, T2 by lia. rewrite Z.sub_diag, Z.pow_0_r, Z.mul_1_r in T2. subst ez. rewrite T2.
  assert (SB : shiftBy 53 1024 (Z.pos M) (-53) = Zdigits2 (2 * Z.pos p + 1) - 1) by (unfold shiftBy, SpecFloat.emin; lia).
  set (n := Zdigits2 (2 * Z.pos p + 1) - 1) in *.
  assert (DV : (2 ^ n | Z.pos M)). { rewrite <- ME. apply Z.divide_mul_r. exists (2 ^ (52 - n)). rewrite <- Z.pow_add_r by lia. f_equal. lia. }
  rewrite round_aux_exact; rewrite ?SB; [| lia | lia | exact DV | lia].
  unfold truncInt64, mag_trunc. destruct (Z.leb_spec 0 (-53 + n)); [lia|].
  assert (P2 : 0 < 2 ^ n) by (apply Z.pow_pos_nonneg; lia). destruct DV as (q & DV).
  rewrite DV, Z.div_mul by lia. rewrite Z2Pos.id by nia.
  assert (R : q / 2 ^ (- (-53 + n)) = Z.pos p).
  { assert (q * 2 ^ n = (2 * Z.pos p + 1) * 2 ^ 52) by congruence.
    assert (QV : q = (2 * Z.pos p + 1) * 2 ^ (52 - n)).
    { apply (Z.mul_reg_r _ _ (2 ^ n)); [lia|]. rewrite H0, <- Z.mul_assoc, <- Z.pow_add_r by lia. do 2 f_equal. lia. }
    replace (- (-53 + n)) with (1 + (52 - n)) by lia. rewrite Z.pow_add_r by lia. change (2 ^ 1) with 2.
    rewrite QV, Z.div_mul_cancel_r by (try apply Z.pow_nonzero; lia). rewrite Z.add_comm, Z.mul_comm, Z.div_add by lia. reflexivity. }
  rewrite R. cbn [signed]. replace (in_int64b (Z.pos p)) with true; [reflexivity|]. symmetry. apply in_int64b_spec. unfold in_int64.
  change INT64_MIN with (-9223372036854775808). change INT64_MAX with 9223372036854775807. lia.
Qed.

Lemma num_order : forall v, 0 <= v < 4294967296 -> isFin (num v) = true /\ SFltb (num v) (S754_zero false) = false /\ SFltb uint32Max (num v) = false.
Proof.
  intros v V. destruct v as [|p|p]; [repeat split; reflexivity| |lia]. rewrite num_is32 by lia. pose proof (digits32 p ltac:(lia)) as D. set (d := Zdigits2 (Z.pos p)) in *.
  split; [reflexivity|]. split; [reflexivity|]. change uint32Max with (S754_finite false 9007199252643840 (-21)). unfold SFltb. cbn [SFcompare]. destruct (Z.compare_spec (-21) (d - 53)) as [Q|Q|Q]; [|lia|reflexivity].
  assert (d = 32) by lia. rewrite H. change (53 - 32) with 21. destruct (Pos.compare_cont Eq 9007199252643840 (Z.to_pos (Z.pos p * 2 ^ 21))) eqn:PC; try reflexivity. exfalso.
  apply Pos.compare_lt_iff in PC. apply Pos2Z.pos_lt_pos in PC. rewrite Z2Pos.id in PC by lia. assert (Z.pos p * 2 ^ 21 <= 4294967295 * 2 ^ 21) by (apply Z.mul_le_mono_nonneg_r; lia). change (4294967295 * 2 ^ 21) with 9007199252643840 in H0. lia.
Qed.
Lemma int_exact : forall v bits, 0 <= v < 4294967296 -> 0 <= bits -> doubleToIntPixelValue (num v) bits = if v <? 2 ^ bits then Ok v else Err.
Proof.
  intros v bits V B. destruct (num_order v V) as (A1 & A2 & A3). unfold doubleToIntPixelValue, doubleToUInt32S. rewrite A1, A2, A3. cbn [negb orb]. change (truncInt64 (add64 (num v) (of64 1 (-1)))) with (roundUp (num v)). rewrite num_exact32 by exact V. cbn [obind].
  destruct (Z.leb_spec 0 v); [|lia]. destruct (Z.ltb_spec v (2 ^ 32)); [|change (2 ^ 32) with 4294967296 in *; lia]. cbn [andb obind]. rewrite Z.shiftl_mul_pow2, Z.mul_1_l by lia. rewrite Z.ltb_antisym. destruct (2 ^ bits <=? v); reflexivity.
Qed.

(** Bit patterns of singles fit. *)
Lemma round_aux_bits : forall s m e l, 0 <= m -> 0 <= toBits (binary_round_aux 24 128 s m e l) < 2 ^ 32.
Proof.
  intros s m e l M. pose proof (round_aux_short 24 128 ltac:(lia) s m e l M) as SH. unfold binary_round_aux in *.
  destruct (shr_fexp 24 128 m e l) as (r1 & e1) eqn:E1.
  set (m1 := round_nearest_even (shr_m r1) (loc_of_shr_record r1)) in *.
  pose proof (shr_fexp_exp 24 128 m1 e1 loc_Exact) as X2. destruct (shr_fexp 24 128 m1 e1 loc_Exact) as (r2 & e2) eqn:E2. cbn [snd] in X2.
  destruct (shr_m r2) as [|p|p]; [destruct s; cbn; lia| |cbn; lia].
  destruct (Zle_bool e2 (128 - 24)) eqn:LE; [|destruct s; cbn; lia].
  apply Zle_bool_imp_le in LE. cbn [short] in SH. cbn [toBits].
  assert (-149 <= e2) by (unfold emin, SpecFloat.emin in X2; lia).
  assert (0 <= (if Z.pos p <? 2 ^ 23 then Z.pos p else (e2 + 150) * 2 ^ 23 + (Z.pos p - 2 ^ 23)) < 2 ^ 31).
  { change (2 ^ 31) with (256 * 2 ^ 23). change (2 ^ 24) with (2 * 2 ^ 23) in SH. change (2 ^ 23) with 8388608 in *. destruct (Z.ltb_spec (Z.pos p) 8388608); lia. }
  change (2 ^ 32) with (2 * 2 ^ 31). destruct s; lia.
Qed.
Lemma to32_bits : forall v, 0 <= toBits (to32 v) < 2 ^ 32.
Proof.
  intros [s|s| |s m e]; try (destruct s; cbn; lia); [cbn; lia|]. cbn [to32]. unfold binary_round. destruct (shl_align m e _) as (mz & ez). apply round_aux_bits. lia.
Qed.
Lemma half_bits : forall b, 0 <= b < 2 ^ 32 -> 0 <= floatToHalf b < 2 ^ 16.
Proof.
  intros b B. rewrite floatToHalf_eq by exact B. pose proof (abs32_bound b B). pose proof (narrowed_bound (abs32 b) ltac:(lia)). change (2 ^ 16) with (2 * 2 ^ 15). destruct (neg32 b); lia.
Qed.
