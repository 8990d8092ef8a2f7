(** The rounding error of AverageFrames. *)
From Coq Require Import ZArith List Lia Bool SpecFloat QArith Qabs Qpower Lqa.
From Verif Require Import Common Soft SoftLemmas SoftBounds SoftErr PlaneMem Spatial Pixel Generic AverageSpec Average.
Import ListNotations.
Open Scope Z_scope.

Lemma digits31 : forall p, Z.pos p <= 2 ^ 31 -> 1 <= Zdigits2 (Z.pos p) <= 32.
Proof.
  intros p H. pose proof (digits2_low p) as L. change (Z.pos (digits2_pos p)) with (Zdigits2 (Z.pos p)) in L.
  assert (1 <= Zdigits2 (Z.pos p)) by (cbn; lia). split; [assumption|].
  destruct (Z_le_gt_dec (Zdigits2 (Z.pos p)) 32); [assumption|].
  assert (2 ^ 32 <= 2 ^ (Zdigits2 (Z.pos p) - 1)) by (apply Z.pow_le_mono_r; lia). lia.
Qed.

Lemma one_of32 : of32 1 0 = S754_finite false 8388608 (-23).
Proof. reflexivity. Qed.
Lemma mg_one : (mg 8388608 (-23) == 1)%Q.
Proof. reflexivity. Qed.
Lemma mg_int : forall p, (mg p 0 == inject_Z (Z.pos p))%Q.
Proof. intros p. unfold mg. change (tw 0) with 1%Q. ring. Qed.

Lemma quot_rel : forall s a p, Z.pos a <= 2 ^ 31 -> Z.pos p <= 2 ^ 31 ->
  exists q e, mul32 (binary_round 24 128 s a 0) (div32 (of32 1 0) (binary_round 24 128 false p 0)) = S754_finite s q e /\
    near (1 - (1 # 2097152)) (1 + (1 # 2097152)) (inject_Z (Z.pos a) / inject_Z (Z.pos p)) (mg q e).
Proof.
  intros s a p A P. pose proof (digits31 a A) as DA. pose proof (digits31 p P) as DP.
  destruct (round_rel 24 128 ltac:(lia) s a 0) as (qa & ea & RA & DQA & EA & NA); [unfold SpecFloat.emin; lia | lia|].
  destruct (round_rel 24 128 ltac:(lia) false p 0) as (qp & ep & RP & DQP & EP & NP); [unfold SpecFloat.emin; lia | lia|].
  unfold mul32, div32. rewrite RA, RP, one_of32.
  destruct (div_rel 24 128 ltac:(lia) false 8388608 (-23) false qp ep) as (qd & ed & RD & DQD & ED & ND); [reflexivity | exact DQP | unfold SpecFloat.emin; lia | lia|].
  rewrite RD. cbn [xorb].
  destruct (mul_rel 24 128 ltac:(lia) s qa ea false qd ed) as (q & e & RM & _ & _ & NM); [exact DQA | exact DQD | unfold SpecFloat.emin; lia | lia|].
  rewrite RM. rewrite xorb_false_r. exists q, e. split; [reflexivity|].
  set (u := tw (-24)) in *. assert (U : (u == 1 # 16777216)%Q) by reflexivity.
  unfold ulo, uhi in *. fold u in NA, NP, ND, NM.
  assert (L0 : (0 < 1 - u)%Q) by (rewrite U; reflexivity). assert (H0 : (0 < 1 + u)%Q) by (rewrite U; reflexivity).
  assert (AP : (0 < inject_Z (Z.pos a))%Q) by (apply (inj_lt 0); lia). assert (PP : (0 < inject_Z (Z.pos p))%Q) by (apply (inj_lt 0); lia).
  pose proof (near_eq _ _ _ _ _ _ (mg_int a) (Qeq_refl _) NA) as NA'. pose proof (near_eq _ _ _ _ _ _ (mg_int p) (Qeq_refl _) NP) as NP'.
  pose proof (near_inv _ _ _ _ L0 PP NP') as NI.
  assert (DE : (mg 8388608 (-23) / mg qp ep == / mg qp ep)%Q) by (setoid_rewrite mg_one; unfold Qdiv; ring).
  pose proof (near_eq _ _ _ _ _ _ DE (Qeq_refl _) ND) as ND'.
  pose proof (near_trans _ _ _ _ _ _ _ (Qlt_le_weak _ _ L0) (Qlt_le_weak _ _ H0) NI ND') as N1.
  assert (IP : (0 < / inject_Z (Z.pos p))%Q) by (apply Qinv_lt_0_compat; exact PP).
  assert (IU : (0 < / (1 + u))%Q) by (apply Qinv_lt_0_compat; exact H0).
  pose proof (near_mul _ _ _ _ _ _ _ _ (Qlt_le_weak _ _ L0) (Qlt_le_weak _ _ (Qmult_lt_0_compat _ _ L0 IU)) (Qlt_le_weak _ _ AP) (Qlt_le_weak _ _ IP) NA' N1) as N2.
  pose proof (near_trans _ _ _ _ _ _ _ (Qlt_le_weak _ _ L0) (Qlt_le_weak _ _ H0) N2 NM) as N3.
  apply near_eq with (a' := (inject_Z (Z.pos a) / inject_Z (Z.pos p))%Q) (x' := mg q e) in N3; [|unfold Qdiv; ring|reflexivity].
  eapply near_le; [| | |exact N3].
  - apply Qlt_le_weak, Qmult_lt_0_compat; assumption.
  - rewrite U. vm_compute. discriminate.
  - rewrite U. vm_compute. discriminate.
Qed.

Lemma avg_near : forall acc scale, Z.abs acc <= 2 ^ 31 -> 1 <= scale <= 2 ^ 31 ->
  exists r, lrint (mul32 (of32 acc 0) (div32 (of32 1 0) (of32 scale 0))) = Ok r /\ quotient32 acc scale r.
Proof.
  intros acc scale A S. destruct scale as [|p|p]; try lia. change (of32 (Z.pos p) 0) with (binary_round 24 128 false p 0).
  assert (SG : forall s a, Z.pos a <= 2 ^ 31 -> exists r, lrint (mul32 (binary_round 24 128 s a 0) (div32 (of32 1 0) (binary_round 24 128 false p 0))) = Ok r /\
      quotient32 (signed s (Z.pos a)) (Z.pos p) r).
  { intros s a H. destruct (quot_rel s a p H ltac:(lia)) as (q & e & M & N1 & N2). rewrite M.
    destruct (mag_rne_near q e) as (R1 & R2). set (R := mag_rne q e) in *.
    assert (PP : (0 < inject_Z (Z.pos p))%Q) by (apply (inj_lt 0); lia).
    assert (R0 : 0 <= R).
    { unfold R, mag_rne. destruct (Z.leb_spec 0 e).
      - pose proof (Z.pow_pos_nonneg 2 e ltac:(lia) ltac:(lia)). nia.
      - cbv zeta. pose proof (Z.pow_pos_nonneg 2 (- e) ltac:(lia) ltac:(lia)). pose proof (Z.div_pos (Z.pos q) (2 ^ (- e)) ltac:(lia) ltac:(lia)).
        repeat match goal with |- context [if ?b then _ else _] => destruct b end; lia. }
    set (A' := inject_Z (Z.pos a)) in *. set (P' := inject_Z (Z.pos p)) in *.
    assert (DV : (A' / P' * P' == A')%Q) by (field; apply Qnot_eq_sym, Qlt_not_eq; exact PP).
    set (D := (A' / P')%Q) in *. set (M' := mg q e) in *. set (RQ := inject_Z R) in *.
    assert (B1 : ((2097152 # 1) * (RQ * P' - A') <= (1048576 # 1) * P' + A')%Q).
    { assert (T : (RQ <= M' + (1 # 2))%Q) by lra. assert (T2 : (RQ <= (1 + (1 # 2097152)) * D + (1 # 2))%Q) by lra.
      assert (T3 : (RQ * P' <= ((1 + (1 # 2097152)) * D + (1 # 2)) * P')%Q) by (apply Qmult_le_compat_r; [exact T2 | lra]).
      setoid_replace (((1 + (1 # 2097152)) * D + (1 # 2)) * P')%Q with ((1 + (1 # 2097152)) * (D * P') + (1 # 2) * P')%Q in T3 by ring. rewrite DV in T3.
      clearbody A' P' D M' RQ. lra. }
    assert (B2 : ((2097152 # 1) * (A' - RQ * P') <= (1048576 # 1) * P' + A')%Q).
    { assert (T : (M' - (1 # 2) <= RQ)%Q) by lra. assert (T2 : ((1 - (1 # 2097152)) * D - (1 # 2) <= RQ)%Q) by lra.
      assert (T3 : (((1 - (1 # 2097152)) * D - (1 # 2)) * P' <= RQ * P')%Q) by (apply Qmult_le_compat_r; [exact T2 | lra]).
      setoid_replace (((1 - (1 # 2097152)) * D - (1 # 2)) * P')%Q with ((1 - (1 # 2097152)) * (D * P') - (1 # 2) * P')%Q in T3 by ring. rewrite DV in T3.
      clearbody A' P' D M' RQ. lra. }
    assert (Z1 : 2097152 * (R * Z.pos p - Z.pos a) <= 1048576 * Z.pos p + Z.pos a).
    { rewrite Zle_Qle. rewrite inject_Z_plus, !inject_Z_mult. unfold Z.sub. rewrite inject_Z_plus, inject_Z_opp, inject_Z_mult. exact B1. }
    assert (Z2 : 2097152 * (Z.pos a - R * Z.pos p) <= 1048576 * Z.pos p + Z.pos a).
    { rewrite Zle_Qle. rewrite inject_Z_plus, !inject_Z_mult. unfold Z.sub. rewrite inject_Z_plus, inject_Z_opp, inject_Z_mult. exact B2. }
    assert (ER : mag_rne q e = R) by reflexivity. clear - Z1 Z2 R0 H S ER. clearbody R. cbn [lrint].
    assert (RB : R < 2 ^ 33) by nia.
    assert (IB : in_int64b (signed s R) = true) by (apply in_int64b_spec; unfold in_int64, INT64_MIN, INT64_MAX; destruct s; cbn [signed]; lia).
    rewrite ER, IB. eexists. split; [reflexivity|].
    unfold quotient32. destruct s; cbn [signed]; lia. }
  destruct acc as [|a|a].
  - exists 0. destruct (quot_rel false 1 p ltac:(lia) ltac:(lia)) as (q & e & M & _).
    split; [|unfold quotient32; lia]. change (of32 0 0) with (S754_zero false).
    unfold mul32, div32 in *. destruct (SFdiv 24 128 (of32 1 0) (binary_round 24 128 false p 0)); cbn in *; try reflexivity; discriminate.
  - change (of32 (Z.pos a) 0) with (binary_round 24 128 false a 0). destruct (SG false a ltac:(lia)) as (r & E & Q). exists r. split; [exact E | exact Q].
  - change (of32 (Z.neg a) 0) with (binary_round 24 128 true a 0). destruct (SG true a ltac:(lia)) as (r & E & Q). exists r. split; [exact E | exact Q].
Qed.

(** A multiple of the scale comes out exactly. *)
Lemma exact_quotient : forall v scale r, 1 <= scale -> Z.abs v < 2 ^ 20 -> quotient32 (v * scale) scale r -> r = v.
Proof.
  intros v scale r S V Q. unfold quotient32 in Q. replace (r * scale - v * scale) with ((r - v) * scale) in Q by ring.
  rewrite !Z.abs_mul in Q. rewrite (Z.abs_eq scale) in Q by lia. destruct (Z.eq_dec r v) as [E|E]; [exact E|]. assert (1 <= Z.abs (r - v)) by lia.
  set (m := Z.abs (r - v)) in *. set (t := Z.abs v) in *. nia.
Qed.

Lemma rounded_near : forall acc scale, Z.abs acc < 2 ^ 31 - 2 ^ 26 -> 1 <= scale <= 2 ^ 31 ->
  exists r, rounded acc scale = Ok r /\ quotient32 acc scale r /\ Z.abs r < 2 ^ 31 - 2 ^ 25.
Proof.
  intros acc scale A S. destruct (avg_near acc scale ltac:(lia) S) as (r & E & Q).
  assert (B : Z.abs r < 2 ^ 31 - 2 ^ 25) by (unfold quotient32 in Q; nia).
  exists r. unfold rounded. rewrite E. cbn [obind]. rewrite wrap32_id by (unfold in_int, INT_MIN, INT_MAX; lia). auto.
Qed.
