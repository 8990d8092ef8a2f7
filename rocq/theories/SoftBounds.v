(** Exponents of rounded results: enough to exclude overflow. *)
From Coq Require Import ZArith List Lia Bool.
From Coq Require Import SpecFloat.
From Verif Require Import Common Soft SoftLemmas.
Import ListNotations.
Open Scope Z_scope.

(** ** Digits *)

Lemma digits2_low : forall p, 2 ^ (Z.pos (digits2_pos p) - 1) <= Z.pos p.
Proof.
  induction p as [p IH|p IH|]; cbn [digits2_pos]; [| |discriminate];
    rewrite Pos2Z.inj_succ; replace (Z.succ (Z.pos (digits2_pos p)) - 1) with (Z.succ (Z.pos (digits2_pos p) - 1)) by lia;
    rewrite Z.pow_succ_r by lia; lia.
Qed.
Lemma Zdigits2_le : forall m n, 0 <= n -> 0 <= m < 2 ^ n -> 0 <= Zdigits2 m <= n.
Proof.
  intros [|p|p] n N (M0 & M); cbn [Zdigits2]; [lia| |lia]. split; [lia|].
  pose proof (digits2_low p) as L. destruct (Z.le_gt_cases (Z.pos (digits2_pos p)) n) as [|G]; [assumption|exfalso].
  assert (2 ^ n <= 2 ^ (Z.pos (digits2_pos p) - 1)) by (apply Z.pow_le_mono_r; lia). lia.
Qed.

Lemma shr_exp : forall r e n, snd (shr r e n) = e + Z.max 0 n.
Proof. intros r e [|p|p]; cbn [shr snd]; lia. Qed.

Section Prec.
Variables prec emax : Z.
Hypothesis P : 0 < prec.
Hypothesis PE : prec <= emax.

Definition emin := SpecFloat.emin prec emax.

Lemma shr_fexp_exp : forall m e l, snd (shr_fexp prec emax m e l) = Z.max e (Z.max (Zdigits2 m + e - prec) emin).
Proof. intros. unfold shr_fexp. rewrite shr_exp. unfold fexp, emin. lia. Qed.

Lemma rne_up : forall m l, 0 <= m -> round_nearest_even m l <= m + 1.
Proof. intros m [|[]] H; cbn [round_nearest_even]; try destruct (Z.even m); lia. Qed.

(** Finite, with exponent at most [E]. *)
Definition expLe (E : Z) (x : spec_float) : Prop :=
  match x with S754_zero _ => True | S754_finite _ m e => Z.pos m < 2 ^ prec /\ e <= E | _ => False end.

Lemma expLe_fin : forall E x, expLe E x -> isFin x = true.
Proof. intros E [s|s| |s m e] H; try contradiction; reflexivity. Qed.
Lemma expLe_short : forall E x, expLe E x -> short prec x.
Proof. intros E [s|s| |s m e] H; cbn in *; try contradiction; tauto. Qed.
Lemma expLe_mono : forall E F x, E <= F -> expLe E x -> expLe F x.
Proof. intros E F [s|s| |s m e] L H; cbn in *; try contradiction; [exact I | split; [tauto | lia]]. Qed.

Lemma round_aux_exp : forall s m e l E, 0 <= m -> e <= E -> Zdigits2 m + e - prec <= E -> emin <= E -> E + 1 <= emax - prec ->
  expLe (E + 1) (binary_round_aux prec emax s m e l).
Proof.
  intros s m e l E M E1 E2 E3 E4. unfold binary_round_aux.
  pose proof (shr_fexp_bound prec emax P m e l M) as B1. pose proof (shr_fexp_exp m e l) as X1.
  destruct (shr_fexp prec emax m e l) as (r1 & e1). cbn [fst snd] in B1, X1. cbv zeta in B1.
  set (m1 := round_nearest_even (shr_m r1) (loc_of_shr_record r1)).
  assert (M1 : 0 <= m1) by (apply rne_nonneg; lia). assert (U1 : m1 <= shr_m r1 + 1) by (apply rne_up; lia).
  assert (D1 : 0 <= Zdigits2 m1 <= prec + 1).
  { apply Zdigits2_le; [lia|]. rewrite Z.pow_add_r by lia. lia. }
  pose proof (shr_fexp_bound prec emax P m1 e1 loc_Exact M1) as B2. pose proof (shr_fexp_exp m1 e1 loc_Exact) as X2.
  destruct (shr_fexp prec emax m1 e1 loc_Exact) as (r2 & e2). cbn [fst snd] in B2, X2. cbv zeta in B2.
  destruct (shr_m r2) as [|q|q]; cbn [expLe]; [exact I| |lia].
  destruct (Z.leb_spec e2 (emax - prec)); [|lia]. cbn [expLe]. lia.
Qed.

Lemma shl_align_spec : forall mx ex e, let r := shl_align mx ex e in
  snd r = Z.min ex e /\ Z.pos (fst r) = Z.pos mx * 2 ^ (ex - Z.min ex e).
Proof.
  intros mx ex e. cbv zeta. unfold shl_align. destruct (e - ex) as [|d|d] eqn:D; cbn [fst snd].
  - replace (Z.min ex e) with ex by lia. rewrite Z.sub_diag. lia.
  - replace (Z.min ex e) with ex by lia. rewrite Z.sub_diag. lia.
  - replace (Z.min ex e) with e by lia. split; [reflexivity|]. rewrite shift_pos_correct. rewrite Z.pow_pos_fold.
    replace (ex - e) with (Z.pos d) by lia. ring.
Qed.

Lemma Zdigits2_mul : forall p n, 0 <= n -> Zdigits2 (Z.pos p * 2 ^ n) = Zdigits2 (Z.pos p) + n.
Proof.
  intros p n N. pattern n. apply natlike_ind; [|intros x X IH|exact N].
  - rewrite Z.pow_0_r, Z.mul_1_r. lia.
  - rewrite Z.pow_succ_r by lia. replace (Z.pos p * (2 * 2 ^ x)) with (2 * (Z.pos p * 2 ^ x)) by ring.
    assert (Q : 0 < Z.pos p * 2 ^ x) by (apply Z.mul_pos_pos; [lia | apply Z.pow_pos_nonneg; lia]).
    destruct (Z.pos p * 2 ^ x) as [|q|q]; try lia. cbn [Zdigits2] in *. cbn [Z.mul Pos.mul digits2_pos Zdigits2]. lia.
Qed.

Lemma round_exp : forall s m e E, e <= E -> Zdigits2 (Z.pos m) + e - prec <= E -> emin <= E -> E + 1 <= emax - prec ->
  expLe (E + 1) (binary_round prec emax s m e).
Proof.
  intros s m e E E1 E2 E3 E4. unfold binary_round.
  pose proof (shl_align_spec m e (fexp prec emax (Z.pos (digits2_pos m) + e))) as S. cbv zeta in S.
  destruct (shl_align m e _) as (mz & ez). cbn [fst snd] in S. destruct S as (S1 & S2).
  apply round_aux_exp; try lia. rewrite S2, Zdigits2_mul by lia. lia.
Qed.

Lemma normalize_exp : forall m e E n, 0 <= n -> Z.abs m < 2 ^ n -> e <= E -> n + e - prec <= E -> emin <= E -> E + 1 <= emax - prec ->
  expLe (E + 1) (binary_normalize prec emax m e false).
Proof.
  intros m e E n N M E1 E2 E3 E4. destruct m as [|m|m]; cbn [binary_normalize]; [exact I| |];
    apply round_exp; try lia; pose proof (Zdigits2_le (Z.pos m) n N); lia.
Qed.

Lemma mul_exp : forall x y Ex Ey E, expLe Ex x -> expLe Ey y -> Ex + Ey + prec <= E -> emin <= E -> E + 1 <= emax - prec ->
  expLe (E + 1) (SFmul prec emax x y).
Proof.
  intros [sx|sx| |sx mx ex] [sy|sy| |sy my ey] Ex Ey E X Y L E3 E4; try contradiction; cbn [SFmul]; try exact I.
  cbn [expLe] in X, Y. apply round_aux_exp; try lia.
  assert (D : 0 <= Zdigits2 (Z.pos (mx * my)) <= prec + prec).
  { apply Zdigits2_le; [lia|]. rewrite Pos2Z.inj_mul, Z.pow_add_r by lia. nia. }
  lia.
Qed.

Lemma add_exp : forall x y E0 E, expLe E0 x -> expLe E0 y -> E0 + 1 <= E -> emin <= E -> E + 1 <= emax - prec ->
  expLe (E + 1) (SFadd prec emax x y).
Proof.
  intros [sx|sx| |sx mx ex] [sy|sy| |sy my ey] E0 E X Y L E3 E4; try contradiction; cbn [SFadd].
  - destruct (Bool.eqb sx sy); exact I.
  - apply expLe_mono with E0; [lia | exact Y].
  - apply expLe_mono with E0; [lia | exact X].
  - cbn [expLe] in X, Y. set (ez := Z.min ex ey).
    pose proof (shl_align_spec mx ex ez) as (Sx1 & Sx2). pose proof (shl_align_spec my ey ez) as (Sy1 & Sy2). cbv zeta in *.
    set (ax := fst (shl_align mx ex ez)) in *. set (ay := fst (shl_align my ey ez)) in *.
    assert (B : forall m e a, Z.pos m < 2 ^ prec -> ez <= e <= E0 -> Z.pos a = Z.pos m * 2 ^ (e - Z.min e ez) -> Z.pos a < 2 ^ (prec + E0 - ez)).
    { intros m e a Hm He Ha. rewrite Ha. replace (Z.min e ez) with ez by lia.
      replace (prec + E0 - ez) with (prec + (E0 - ez)) by lia. rewrite Z.pow_add_r by lia.
      assert (0 < 2 ^ (e - ez)) by (apply Z.pow_pos_nonneg; lia).
      assert (2 ^ (e - ez) <= 2 ^ (E0 - ez)) by (apply Z.pow_le_mono_r; lia). nia. }
    pose proof (B mx ex ax ltac:(lia) ltac:(lia) Sx2) as BX. pose proof (B my ey ay ltac:(lia) ltac:(lia) Sy2) as BY.
    assert (Q : forall z, z = Z.pos ax \/ z = Z.neg ax \/ z = Z.pos ay \/ z = Z.neg ay -> Z.abs z < 2 ^ (prec + E0 - ez)) by (intros z Hz; lia).
    assert (T : Z.abs (cond_Zopp sx (Z.pos ax) + cond_Zopp sy (Z.pos ay)) < 2 ^ (prec + E0 - ez + 1)).
    { rewrite Z.pow_add_r by lia. unfold cond_Zopp. destruct sx, sy; lia. }
    apply normalize_exp with (n := prec + E0 - ez + 1); [lia | exact T | lia ..].
Qed.

Lemma sqrt_exp : forall x E0 E, expLe E0 x -> (match x with S754_finite s _ _ => s = false | _ => True end) ->
  0 <= E0 -> prec <= E0 + E + E -> E0 <= E + E -> emin <= E -> E + 1 <= emax - prec -> expLe (E + 1) (SFsqrt prec emax x).
Proof.
  intros [s|s| |s m e] E0 E X N H0 L1 L2 E3 E4; try contradiction; cbn [SFsqrt]; [exact I|]. rewrite N. cbn [expLe] in X.
  unfold SFsqrt_core_binary. set (d := Zdigits2 (Z.pos m)).
  set (e' := Z.min (fexp prec emax (Z.div2 (d + e + 1))) (Z.div2 e)).
  assert (D2 : 2 * e' <= e) by (pose proof (Z.div2_odd e); destruct (Z.odd e); cbn [Z.b2z] in *; lia).
  assert (M' : match e - 2 * e' with Z0 => Z.pos m | Z.pos _ => Z.shiftl (Z.pos m) (e - 2 * e') | Z.neg _ => 0 end = Z.pos m * 2 ^ (e - 2 * e')).
  { destruct (e - 2 * e') eqn:Q; [rewrite Z.pow_0_r; lia | rewrite <- Q; apply Z.shiftl_mul_pow2; lia | lia]. }
  rewrite M'. pose proof (Z.sqrtrem_spec (Z.pos m * 2 ^ (e - 2 * e')) ltac:(apply Z.mul_nonneg_nonneg; [lia | apply Z.pow_nonneg; lia])) as SR.
  destruct (Z.sqrtrem (Z.pos m * 2 ^ (e - 2 * e'))) as (q & r). destruct SR as (SR1 & SR2).
  assert (Q0 : 0 <= q) by lia.
  apply round_aux_exp; try lia.
  (* q^2 <= m 2^(e-2e') < 2^(prec+e-2e') *)
  assert (QB : q < 2 ^ (prec + E - e')).
  { destruct (Z.lt_ge_cases q (2 ^ (prec + E - e'))) as [|G]; [assumption|exfalso].
    assert (2 ^ (prec + E - e') * 2 ^ (prec + E - e') <= q * q) by (apply Z.mul_le_mono_nonneg; try assumption; apply Z.pow_nonneg; lia).
    rewrite <- Z.pow_add_r in * by lia.
    assert (Z.pos m * 2 ^ (e - 2 * e') < 2 ^ (prec + (e - 2 * e'))).
    { rewrite Z.pow_add_r by lia. apply Z.mul_lt_mono_pos_r; [apply Z.pow_pos_nonneg; lia | lia]. }
    assert (2 ^ (prec + (e - 2 * e')) <= 2 ^ (prec + E - e' + (prec + E - e'))) by (apply Z.pow_le_mono_r; lia). lia. }
  pose proof (Zdigits2_le q (prec + E - e') ltac:(lia) ltac:(lia)). lia.
Qed.

(** Quotients whose divisor is not subnormal. *)
Lemma div_exp : forall s1 m1 e1 s2 m2 e2 E, Z.pos m1 < 2 ^ prec ->
  let d1 := Zdigits2 (Z.pos m1) in let d2 := Zdigits2 (Z.pos m2) in
  d1 + e1 - (d2 + e2) + 1 - prec <= E -> emin <= E -> E + 1 <= emax - prec ->
  expLe (E + 1) (SFdiv prec emax (S754_finite s1 m1 e1) (S754_finite s2 m2 e2)).
Proof.
  intros s1 m1 e1 s2 m2 e2 E M1 d1 d2 E1 E3 E4. cbn [SFdiv]. unfold SFdiv_core_binary. fold d1 d2.
  set (e' := Z.min (fexp prec emax (d1 + e1 - (d2 + e2))) (e1 - e2)).
  assert (S0 : 0 <= e1 - e2 - e') by lia.
  assert (M' : match e1 - e2 - e' with Z0 => Z.pos m1 | Z.pos _ => Z.shiftl (Z.pos m1) (e1 - e2 - e') | Z.neg _ => 0 end = Z.pos m1 * 2 ^ (e1 - e2 - e')).
  { destruct (e1 - e2 - e') eqn:Q; [rewrite Z.pow_0_r; lia | rewrite <- Q; apply Z.shiftl_mul_pow2; lia | lia]. }
  rewrite M'. set (n := e1 - e2 - e') in *.
  assert (PN : 0 < 2 ^ n) by (apply Z.pow_pos_nonneg; lia).
  pose proof (Z.div_eucl_eq (Z.pos m1 * 2 ^ n) (Z.pos m2) ltac:(lia)) as DE.
  pose proof (Z.mod_pos_bound (Z.pos m1 * 2 ^ n) (Z.pos m2) ltac:(lia)) as RB.
  assert (QE : fst (Z.div_eucl (Z.pos m1 * 2 ^ n) (Z.pos m2)) = Z.pos m1 * 2 ^ n / Z.pos m2) by reflexivity.
  destruct (Z.div_eucl (Z.pos m1 * 2 ^ n) (Z.pos m2)) as (q & r) eqn:DQ. cbn [fst] in QE.
  assert (Q0 : 0 <= q) by (rewrite QE; apply Z.div_pos; [apply Z.mul_nonneg_nonneg; lia | lia]).
  assert (F : e' <= E) by (unfold e', fexp; fold emin; lia).
  apply round_aux_exp; try lia.
  assert (DB : d1 >= 1 /\ d2 >= 1) by (subst d1 d2; cbn [Zdigits2]; lia).
  assert (QB : 0 <= q < 2 ^ (Z.max 0 (d1 + n - d2 + 1))).
  { split; [exact Q0|]. rewrite QE. apply Z.div_lt_upper_bound; [lia|].
    pose proof (digits2_bound m1) as U1. pose proof (digits2_low m2) as U2. change (Z.pos (digits2_pos m1)) with d1 in U1. change (Z.pos (digits2_pos m2)) with d2 in U2.
    apply Z.lt_le_trans with (2 ^ d1 * 2 ^ n); [apply Z.mul_lt_mono_pos_r; lia|].
    rewrite <- Z.pow_add_r by lia.
    apply Z.le_trans with (2 ^ (d2 - 1) * 2 ^ Z.max 0 (d1 + n - d2 + 1)); [|apply Z.mul_le_mono_nonneg_r; [apply Z.pow_nonneg; lia | exact U2]].
    rewrite <- Z.pow_add_r by lia. apply Z.pow_le_mono_r; lia. }
  pose proof (Zdigits2_le q (Z.max 0 (d1 + n - d2 + 1)) ltac:(lia) QB) as DQ2. lia.
Qed.
End Prec.

Lemma of32_exp : forall v n E, 0 <= n -> Z.abs v < 2 ^ n -> 0 <= E -> n - 24 <= E -> E + 1 <= 104 -> expLe 24 (E + 1) (of32 v 0).
Proof. intros v n E N V E0 E1 E2. unfold of32. apply normalize_exp with (n := n); try lia. unfold emin, SpecFloat.emin. lia. Qed.
Lemma of32_fin : forall v, Z.abs v < 2 ^ 64 -> isFin (of32 v 0) = true.
Proof. intros v V. apply (expLe_fin 24 41). apply (of32_exp v 64 40); lia. Qed.
