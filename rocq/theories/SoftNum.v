(** Integers up to 65535 survive the trip through doubles and floats. *)
From Coq Require Import ZArith List Lia Bool.
From Coq Require Import SpecFloat.
From Verif Require Import Common Soft SoftLemmas SoftBounds SoftRound GenericCast.
Import ListNotations.
Open Scope Z_scope.

(** Rounding a number that needs no rounding. *)
Section Exact.
Variables prec emax : Z.
Hypothesis P : 0 < prec.

Definition shiftBy (M e : Z) : Z := Z.max 0 (Z.max (Zdigits2 M + e - prec) (SpecFloat.emin prec emax) - e).

Lemma round_aux_exact : forall s M e, 0 < M -> (2 ^ shiftBy M e | M) -> e + shiftBy M e <= emax - prec ->
  binary_round_aux prec emax s M e loc_Exact = S754_finite s (Z.to_pos (M / 2 ^ shiftBy M e)) (e + shiftBy M e).
Proof.
  intros s M e MP (q & Q) EB. set (n := shiftBy M e) in *. assert (N0 : 0 <= n) by (unfold n, shiftBy; lia).
  assert (P2 : 0 < 2 ^ n) by (apply Z.pow_pos_nonneg; lia). assert (DQ : M / 2 ^ n = q) by (rewrite Q; apply Z.div_mul; lia).
  assert (QP : 0 < q) by nia. unfold binary_round_aux. rewrite DQ.
  unfold shr_fexp at 1.
  pose proof (shr_keeps M e (fexp prec emax (Zdigits2 M + e) - e) ltac:(lia)) as KP.
  pose proof (shr_div (shr_record_of_loc M loc_Exact) e (fexp prec emax (Zdigits2 M + e) - e) ltac:(rewrite rec_of_loc; lia)) as SD.
  pose proof (shr_exp (shr_record_of_loc M loc_Exact) e (fexp prec emax (Zdigits2 M + e) - e)) as SE.
  change (Z.max 0 (fexp prec emax (Zdigits2 M + e) - e)) with n in *. rewrite rec_of_loc, DQ in SD.
  destruct (shr _ _ _) as (r & e1). cbn [fst snd] in *. subst e1. destruct KP as (_ & _ & _ & K).
  rewrite SD in K. assert (FL : shr_r r || shr_s r = false) by (destruct (shr_r r || shr_s r); [specialize (K eq_refl); lia | reflexivity]).
  assert (LE : loc_of_shr_record r = loc_Exact) by (destruct r as [m b t]; cbn [shr_r shr_s] in FL; destruct b, t; try discriminate; reflexivity).
  rewrite LE, SD. cbn [round_nearest_even].
  assert (DB : Zdigits2 q <= prec /\ SpecFloat.emin prec emax <= e + n).
  { split; [|unfold n, shiftBy; lia]. apply Zdigits2_le; [lia|]. split; [lia|].
    destruct (Zdigits2_bound M ltac:(lia)) as (_ & B). assert (MB : Zdigits2 M <= n + prec) by (unfold n, shiftBy; lia).
    assert (2 ^ Zdigits2 M <= 2 ^ (n + prec)) by (apply Z.pow_le_mono_r; lia). rewrite Z.pow_add_r in H by lia. nia. }
  unfold shr_fexp. assert (SH : fexp prec emax (Zdigits2 q + (e + n)) - (e + n) <= 0) by (unfold fexp; lia).
  destruct (fexp prec emax (Zdigits2 q + (e + n)) - (e + n)) as [|z|z]; [|lia|]; cbn [shr shr_record_of_loc shr_m];
    (destruct q as [|p|p]; [lia| |lia]); destruct (Z.leb_spec (e + n) (emax - prec)); try lia; reflexivity.
Qed.

(** m * 2^e with at most [prec] digits and exponents in the range. *)
Lemma round_exact : forall s m e, let d := Zdigits2 (Z.pos m) in
  d <= prec -> SpecFloat.emin prec emax <= d + e - prec -> d + e <= emax ->
  binary_round prec emax s m e = S754_finite s (Z.to_pos (Z.pos m * 2 ^ (prec - d))) (d + e - prec).
Proof.
  intros s m e d D E1 E2. unfold binary_round.
  pose proof (shl_align_spec m e (fexp prec emax (Z.pos (digits2_pos m) + e))) as S. cbv zeta in S. destruct S as (S1 & S2).
  change (Z.pos (digits2_pos m)) with d in *. assert (FE : fexp prec emax (d + e) = d + e - prec) by (unfold fexp; lia). rewrite FE in *.
  destruct (shl_align m e (d + e - prec)) as (mz & ez). cbn [fst snd] in *. rewrite Z.min_r in S1, S2 by lia. subst ez.
  replace (e - (d + e - prec)) with (prec - d) in S2 by lia.
  assert (DG : Zdigits2 (Z.pos mz) = prec) by (rewrite S2, Zdigits2_mul by lia; unfold d; lia).
  assert (SB : shiftBy (Z.pos mz) (d + e - prec) = 0) by (unfold shiftBy; rewrite DG; lia).
  rewrite round_aux_exact; rewrite ?SB; [| lia | exists (Z.pos mz); rewrite Z.pow_0_r; lia | lia].
  rewrite Z.pow_0_r, Z.div_1_r, S2, Z.add_0_r. reflexivity.
Qed.
End Exact.

(** A number given as an integer. *)
Definition num (v : Z) : fl := of64 v 0.
Definition roundUp (x : fl) : outcome Z := truncInt64 (add64 x (of64 1 (-1))).

Lemma digits16 : forall p, Z.pos p < 65536 -> 1 <= Zdigits2 (Z.pos p) <= 16.
Proof. intros p B. split; [cbn; lia|]. apply Zdigits2_le; [lia|]. change (2 ^ 16) with 65536. lia. Qed.

Lemma num_is : forall p, Z.pos p < 65536 -> let d := Zdigits2 (Z.pos p) in
  num (Z.pos p) = S754_finite false (Z.to_pos (Z.pos p * 2 ^ (53 - d))) (d - 53).
Proof.
  intros p B d. pose proof (digits16 p B) as D. fold d in D. unfold num, of64. cbn [binary_normalize].
  rewrite (round_exact 53 1024 ltac:(lia)); fold d; [|lia| unfold SpecFloat.emin; lia | lia]. f_equal; lia.
Qed.

Lemma num_exact : forall v, 0 <= v < 65536 -> roundUp (num v) = Ok v.
Proof.
  intros v V. destruct v as [|p|p]; [reflexivity| |lia]. rewrite num_is by lia. pose proof (digits16 p ltac:(lia)) as D. set (d := Zdigits2 (Z.pos p)) in *.
  unfold roundUp, add64. change (of64 1 (-1)) with (S754_finite false (2 ^ 52) (-53)). cbn [SFadd].
  rewrite Z.min_r by lia.
  pose proof (shl_align_spec (Z.to_pos (Z.pos p * 2 ^ (53 - d))) (d - 53) (-53)) as S. cbv zeta in S. destruct S as (_ & S). rewrite Z.min_r in S by lia.
  rewrite Z2Pos.id in S by (apply Z.mul_pos_pos; [lia | apply Z.pow_pos_nonneg; lia]).
  rewrite <- Z.mul_assoc, <- Z.pow_add_r in S by lia. replace (53 - d + (d - 53 - -53)) with 53 in S by lia.
  cbn [cond_Zopp]. rewrite S. change (Z.pos (fst (shl_align (2 ^ 52) (-53) (-53)))) with (2 ^ 52).
  replace (Z.pos p * 2 ^ 53 + 2 ^ 52) with ((2 * Z.pos p + 1) * 2 ^ 52) by (change (2 ^ 53) with (2 * 2 ^ 52); ring).
  destruct ((2 * Z.pos p + 1) * 2 ^ 52) as [|M|M] eqn:ME; [lia| |lia]. cbn [binary_normalize]. unfold binary_round.
  assert (DM : Zdigits2 (Z.pos M) = Zdigits2 (2 * Z.pos p + 1) + 52) by (rewrite <- ME; change (2 * Z.pos p + 1) with (Z.pos (p~1)); apply Zdigits2_mul; lia).
  assert (D2 : 1 <= Zdigits2 (2 * Z.pos p + 1) <= 17).
  { split; [cbn; lia|]. apply Zdigits2_le; [lia|]. change (2 ^ 17) with 131072. lia. }
  pose proof (shl_align_spec M (-53) (fexp 53 1024 (Z.pos (digits2_pos M) + -53))) as T. cbv zeta in T. destruct T as (T1 & T2).
  change (Z.pos (digits2_pos M)) with (Zdigits2 (Z.pos M)) in *.
  assert (FE : fexp 53 1024 (Zdigits2 (Z.pos M) + -53) = Zdigits2 (2 * Z.pos p + 1) - 54) by (unfold fexp, SpecFloat.emin; lia). rewrite FE in *.
  destruct (shl_align M (-53) _) as (mz & ez). cbn [fst snd] in *. rewrite Z.min_l in T1, T2 by lia. rewrite Z.sub_diag, Z.pow_0_r, Z.mul_1_r in T2. subst ez. rewrite T2.
  assert (SB : shiftBy 53 1024 (Z.pos M) (-53) = Zdigits2 (2 * Z.pos p + 1) - 1) by (unfold shiftBy, SpecFloat.emin; lia).
  set (n := Zdigits2 (2 * Z.pos p + 1) - 1) in *.
  assert (DV : (2 ^ n | Z.pos M)). { rewrite <- ME. apply Z.divide_mul_r. exists (2 ^ (52 - n)). rewrite <- Z.pow_add_r by lia. f_equal. lia. }
  rewrite round_aux_exact; rewrite ?SB; [| lia | lia | exact DV | lia].
  unfold truncInt64, mag_trunc. destruct (Z.leb_spec 0 (-53 + n)); [lia|].
  assert (P2 : 0 < 2 ^ n) by (apply Z.pow_pos_nonneg; lia). destruct DV as (q & DV).
  rewrite DV, Z.div_mul by lia. rewrite Z2Pos.id by nia.
  assert (R : q / 2 ^ (- (-53 + n)) = Z.pos p).
  { assert (q * 2 ^ n = (2 * Z.pos p + 1) * 2 ^ 52) by congruence.
    assert (QV : q = (2 * Z.pos p + 1) * 2 ^ (52 - n)).
    { apply (Z.mul_reg_r _ _ (2 ^ n)); [lia|]. rewrite H0, <- Z.mul_assoc, <- Z.pow_add_r by lia. do 2 f_equal. lia. }
    replace (- (-53 + n)) with (1 + (52 - n)) by lia. rewrite Z.pow_add_r by lia. change (2 ^ 1) with 2.
    rewrite QV, Z.div_mul_cancel_r by (try apply Z.pow_nonzero; lia). rewrite Z.add_comm, Z.mul_comm, Z.div_add by lia. reflexivity. }
  rewrite R. cbn [signed]. replace (in_int64b (Z.pos p)) with true; [reflexivity|]. symmetry. apply in_int64b_spec. unfold in_int64.
  change INT64_MIN with (-9223372036854775808). change INT64_MAX with 9223372036854775807. lia.
Qed.

Lemma cast_exact : forall u, 0 <= u < 65536 -> isFin (to32 (num u)) && match floatToInt64S (to32 (num u)) with Ok w => w =? u | _ => false end = true.
Proof.
  intros v V. destruct v as [|p|p]; [reflexivity| |lia]. rewrite num_is by lia. pose proof (digits16 p ltac:(lia)) as D. set (d := Zdigits2 (Z.pos p)) in *.
  cbn [to32]. set (m := Z.to_pos (Z.pos p * 2 ^ (53 - d))).
  assert (P53 : 0 < 2 ^ (53 - d)) by (apply Z.pow_pos_nonneg; lia). assert (M : Z.pos m = Z.pos p * 2 ^ (53 - d)) by (apply Z2Pos.id; nia).
  assert (DM : Zdigits2 (Z.pos m) = 53) by (rewrite M, Zdigits2_mul by lia; unfold d; lia).
  unfold binary_round. pose proof (shl_align_spec m (d - 53) (fexp 24 128 (Z.pos (digits2_pos m) + (d - 53)))) as T. cbv zeta in T. destruct T as (T1 & T2).
  change (Z.pos (digits2_pos m)) with (Zdigits2 (Z.pos m)) in *. assert (FE : fexp 24 128 (Zdigits2 (Z.pos m) + (d - 53)) = d - 24) by (rewrite DM; unfold fexp, SpecFloat.emin; lia). rewrite FE in *.
  destruct (shl_align m (d - 53) (d - 24)) as (mz & ez). cbn [fst snd] in *. rewrite Z.min_l in T1, T2 by lia. rewrite Z.sub_diag, Z.pow_0_r, Z.mul_1_r in T2. subst ez. rewrite T2.
  assert (SB : shiftBy 24 128 (Z.pos m) (d - 53) = 29) by (unfold shiftBy, SpecFloat.emin; rewrite DM; lia).
  assert (ME : Z.pos m = Z.pos p * 2 ^ (24 - d) * 2 ^ 29) by (rewrite M, <- Z.mul_assoc, <- Z.pow_add_r by lia; do 2 f_equal; lia).
  rewrite round_aux_exact; rewrite ?SB; [| lia | lia | eexists; exact ME | lia].
  rewrite ME, Z.div_mul by lia. assert (P24 : 0 < 2 ^ (24 - d)) by (apply Z.pow_pos_nonneg; lia).
  replace (d - 53 + 29) with (d - 24) by lia. set (m2 := Z.to_pos (Z.pos p * 2 ^ (24 - d))). assert (M2 : Z.pos m2 = Z.pos p * 2 ^ (24 - d)) by (apply Z2Pos.id; nia).
  cbn [isFin andb]. unfold floatToInt64S. change (of32 1 63) with (S754_finite false (2 ^ 23) 40). change (of32 (-1) 63) with (S754_finite true (2 ^ 23) 40).
  unfold SFltb. cbn [SFcompare]. replace (40 ?= d - 24) with Gt by (symmetry; apply Z.compare_gt_iff; lia).
  unfold llround, mag_away. destruct (Z.leb_spec 0 (d - 24)); [lia|]. cbv zeta. replace (- (d - 24)) with (24 - d) by lia. rewrite M2.
  replace ((2 * (Z.pos p * 2 ^ (24 - d)) + 2 ^ (24 - d)) / (2 * 2 ^ (24 - d))) with (Z.pos p).
  - cbn [signed]. replace (in_int64b (Z.pos p)) with true; [apply Z.eqb_refl|]. symmetry. apply in_int64b_spec. unfold in_int64.
    change INT64_MIN with (-9223372036854775808). change INT64_MAX with 9223372036854775807. lia.
  - apply (Z.div_unique_pos _ _ _ (2 ^ (24 - d))); lia.
Qed.
