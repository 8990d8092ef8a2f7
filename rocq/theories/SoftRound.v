(** Rounding does not pass a representable bound: x + 1/2 truncated, for x at most an integer. *)
From Coq Require Import ZArith List Lia Bool.
From Coq Require Import SpecFloat.
From Verif Require Import Common Soft SoftLemmas SoftBounds.
Import ListNotations.
Open Scope Z_scope.

(** What was shifted out: the record says "exact" only if nothing was. *)
Definition keeps (n m : Z) (r : shr_record) : Prop :=
  0 <= shr_m r /\ shr_m r * 2 ^ n <= m /\ (shr_m r * 2 ^ n = m \/ True) /\
  (shr_r r || shr_s r = true -> shr_m r * 2 ^ n < m).

Lemma shr_1_keeps : forall n m r, 0 <= n -> keeps n m r -> keeps (n + 1) m (shr_1 r).
Proof.
  intros n m [q b s] N (K1 & K2 & _ & K3). cbn [shr_m shr_r shr_s] in *. unfold keeps.
  rewrite Z.pow_add_r by lia. change (2 ^ 1) with 2. assert (P2 : 0 < 2 ^ n) by (apply Z.pow_pos_nonneg; lia).
  destruct q as [|p|p]; [| |lia].
  - cbn [shr_1 shr_m shr_r shr_s]. split; [lia|]. split; [lia|]. split; [tauto|]. cbn [orb]. intros Q. apply K3 in Q. lia.
  - destruct p as [p|p|]; cbn [shr_1 shr_m shr_r shr_s].
    + split; [lia|]. split; [nia|]. split; [tauto|]. intros _. nia.
    + split; [lia|]. split; [nia|]. split; [tauto|]. cbn [orb]. intros Q. apply K3 in Q. nia.
    + split; [lia|]. split; [lia|]. split; [tauto|]. intros _. lia.
Qed.

Lemma iter_keeps : forall p n m r, 0 <= n -> keeps n m r -> keeps (n + Z.pos p) m (iter_pos shr_1 p r).
Proof.
  induction p as [p IH|p IH|]; intros n m r N K; cbn [iter_pos].
  - replace (n + Z.pos p~1) with (n + 1 + Z.pos p + Z.pos p) by lia. apply IH; [lia|]. apply IH; [lia|]. apply shr_1_keeps; assumption.
  - replace (n + Z.pos p~0) with (n + Z.pos p + Z.pos p) by lia. apply IH; [lia|]. apply IH; [lia|]. exact K.
  - apply shr_1_keeps; assumption.
Qed.

Lemma shr_keeps : forall m e n, 0 <= m -> keeps (Z.max 0 n) m (fst (shr (shr_record_of_loc m loc_Exact) e n)).
Proof.
  intros m e n M.
  assert (K0 : keeps 0 m (shr_record_of_loc m loc_Exact)).
  { unfold keeps. cbn [shr_record_of_loc shr_m shr_r shr_s]. rewrite Z.pow_0_r. cbn [orb]. split; [exact M|]. split; [lia|]. split; [tauto|]. discriminate. }
  destruct n as [|p|p]; cbn [shr fst]; [exact K0 | | exact K0]. rewrite Z.max_r by lia. apply (iter_keeps p 0); [lia | exact K0].
Qed.

Lemma rne_inexact : forall r, round_nearest_even (shr_m r) (loc_of_shr_record r) = shr_m r \/
  (shr_r r || shr_s r = true /\ round_nearest_even (shr_m r) (loc_of_shr_record r) = shr_m r + 1).
Proof.
  intros [m b s]. destruct b, s; cbn [loc_of_shr_record round_nearest_even shr_m shr_r shr_s orb]; auto; destruct (Z.even m); auto.
Qed.

(** m * 2^e at most B / 2: so is the rounded value, as long as its unit is at most 1/2. *)
Lemma round_aux_le : forall s m e B, 0 <= m -> e <= -1 -> m <= B * 2 ^ (-1 - e) -> m < 2 ^ (22 - e) -> 0 <= B ->
  match binary_round_aux 24 128 s m e loc_Exact with
  | S754_zero s' => s' = s
  | S754_finite s' m' e' => s' = s /\ e' <= -1 /\ Z.pos m' <= B * 2 ^ (-1 - e')
  | _ => False
  end.
Proof.
  intros s m e B M E MB SM B0. unfold binary_round_aux.
  pose proof (shr_fexp_exp 24 128 m e loc_Exact) as X1. pose proof (shr_fexp_bound 24 128 ltac:(lia) m e loc_Exact M) as L1. cbv zeta in L1.
  unfold shr_fexp in *.
  set (n1 := fexp 24 128 (Zdigits2 m + e) - e) in *.
  pose proof (shr_keeps m e n1 M) as K1. destruct (shr (shr_record_of_loc m loc_Exact) e n1) as (r1 & e1) eqn:S1. cbn [fst snd] in *.
  pose proof (Zdigits2_le m (22 - e) ltac:(lia) ltac:(lia)) as D1.
  pose proof (shr_exp (shr_record_of_loc m loc_Exact) e n1) as SE. rewrite S1 in SE. cbn [snd] in SE.
  unfold emin, SpecFloat.emin in X1.
  assert (E1 : e <= e1 <= -1) by lia.
  destruct K1 as (K10 & K11 & _ & K12).
  assert (U1 : shr_m r1 <= B * 2 ^ (-1 - e1) /\ (shr_r r1 || shr_s r1 = true -> shr_m r1 + 1 <= B * 2 ^ (-1 - e1))).
  { assert (P1 : 0 < 2 ^ (e1 - e)) by (apply Z.pow_pos_nonneg; lia).
    assert (PQ : 2 ^ (-1 - e) = 2 ^ (-1 - e1) * 2 ^ (e1 - e)) by (rewrite <- Z.pow_add_r by lia; f_equal; lia).
    replace (Z.max 0 n1) with (e1 - e) in * by lia. rewrite PQ, Z.mul_assoc in MB. split.
    - apply Z.mul_le_mono_pos_r with (2 ^ (e1 - e)); lia.
    - intros Q. specialize (K12 Q). assert (shr_m r1 < B * 2 ^ (-1 - e1)) by (apply Z.mul_lt_mono_pos_r with (2 ^ (e1 - e)); lia). lia. }
  set (m1 := round_nearest_even (shr_m r1) (loc_of_shr_record r1)).
  assert (M1 : 0 <= m1 <= B * 2 ^ (-1 - e1) /\ m1 <= shr_m r1 + 1).
  { split; [split; [apply rne_nonneg; lia|] |apply rne_up; lia]. unfold m1. destruct (rne_inexact r1) as [->|(Q & ->)]; [tauto | apply U1; exact Q]. }
  pose proof (shr_fexp_exp 24 128 m1 e1 loc_Exact) as X2. unfold shr_fexp in X2.
  set (n2 := fexp 24 128 (Zdigits2 m1 + e1) - e1) in *.
  pose proof (shr_keeps m1 e1 n2 ltac:(lia)) as K2. pose proof (shr_exp (shr_record_of_loc m1 loc_Exact) e1 n2) as SE2.
  destruct (shr (shr_record_of_loc m1 loc_Exact) e1 n2) as (r2 & e2). cbn [fst snd] in *. destruct K2 as (K20 & K21 & _ & _).
  assert (D2 : 0 <= Zdigits2 m1 <= 25) by (apply Zdigits2_le; lia).
  unfold emin, SpecFloat.emin in X2.
  assert (E2 : e1 <= e2 <= e1 + 1) by lia.
  destruct (shr_m r2) as [|q|q] eqn:Q; [reflexivity| |lia].
  destruct (Z.leb_spec e2 (128 - 24)); [|lia]. split; [reflexivity|].
  assert (E2' : e2 <= -1).
  { (* the value is below 2^22 *)
    assert (Q1 : shr_m r1 < 2 ^ (22 - e1)).
    { assert (P1 : 0 < 2 ^ (e1 - e)) by (apply Z.pow_pos_nonneg; lia).
      assert (PQ : 2 ^ (22 - e) = 2 ^ (22 - e1) * 2 ^ (e1 - e)) by (rewrite <- Z.pow_add_r by lia; f_equal; lia).
      replace (Z.max 0 n1) with (e1 - e) in * by lia. apply Z.mul_lt_mono_pos_r with (2 ^ (e1 - e)); lia. }
    assert (Q2 : 2 ^ (23 - e1) = 2 ^ (22 - e1) * 2) by (replace (23 - e1) with (22 - e1 + 1) by lia; rewrite Z.pow_add_r by lia; reflexivity).
    assert (Q3 : 0 < 2 ^ (22 - e1)) by (apply Z.pow_pos_nonneg; lia).
    assert (D3 : 0 <= Zdigits2 m1 <= 23 - e1) by (apply Zdigits2_le; lia). lia. }
  split; [exact E2'|].
  assert (P1 : 0 < 2 ^ (e2 - e1)) by (apply Z.pow_pos_nonneg; lia).
  assert (PQ : 2 ^ (-1 - e1) = 2 ^ (-1 - e2) * 2 ^ (e2 - e1)) by (rewrite <- Z.pow_add_r by lia; f_equal; lia).
  replace (Z.max 0 n2) with (e2 - e1) in * by lia. destruct M1 as ((_ & M1) & _). rewrite PQ, Z.mul_assoc in M1.
  apply Z.mul_le_mono_pos_r with (2 ^ (e2 - e1)); lia.
Qed.
