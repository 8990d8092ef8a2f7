(** The fraction, the size of the filter and the length of the output of AudioResample. *)
From Coq Require Import ZArith QArith Qabs Qpower Lqa List Bool Lia Znumtheory.
From Coq Require Import SpecFloat.
From Verif Require Import Common AudioSpec Audio AudioLemmas PlaneMem Soft SoftNum SoftErr SoftAdd TimeLemmas Rational ResampleSpec Resample ResampleLemmas.
Import ListNotations.
Open Scope Z_scope.

Lemma gcdLoop_same : forall fuel a b g, gcd_loop fuel a b = Ok g -> gcdLoop fuel a b = g.
Proof.
  induction fuel as [|k IH]; intros a b g H; [discriminate|]. cbn [gcd_loop] in H. cbn [gcdLoop]. destruct (b =? 0); [congruence|]. destruct ((a =? INT64_MIN) && (b =? -1)); [discriminate|]. apply IH. exact H.
Qed.
Lemma gcdLoop_nonneg : forall fuel a b, 0 <= a -> 0 <= b -> 0 <= gcdLoop fuel a b.
Proof.
  induction fuel as [|k IH]; intros a b A B; [apply Z.le_refl|]. cbn [gcdLoop]. destruct (Z.eqb_spec b 0); [exact A|]. apply IH; [exact B|]. apply Z.rem_nonneg; lia.
Qed.
Lemma gcd64_spec : forall a b, 0 <= a <= INT_MAX -> 0 <= b <= INT_MAX -> gcd64 a b = Z.gcd a b.
Proof.
  intros a b A B. unfold INT_MAX in *. destruct (gcd_loop_ok a b) as (g & E & G & _); [unfold INT64_MIN; lia|unfold INT64_MIN, INT64_MAX; lia|]. apply gcdLoop_same in E. pose proof (gcdLoop_nonneg gcd_fuel a b ltac:(lia) ltac:(lia)). unfold gcd64. fold gcd_fuel. lia.
Qed.

(** *** The length of the filter *)
Lemma ceil_bounds : forall m e, let v := (if 0 <=? e then Z.pos m * 2 ^ e else - ((- Z.pos m) / 2 ^ (- e))) in (inject_Z v - 1 < mg m e /\ mg m e <= inject_Z v)%Q.
Proof.
  intros m e v. unfold v, mg. destruct (Z.leb_spec 0 e) as [E|E].
  - rewrite tw_Z by lia. rewrite <- inject_Z_mult. split; lra.
  - set (d := 2 ^ (- e)). assert (DP : 0 < d) by (apply Z.pow_pos_nonneg; lia).
    assert (TD : (tw e * inject_Z d == 1)%Q) by (unfold d; rewrite <- tw_Z, <- tw_add by lia; replace (e + - e) with 0 by lia; reflexivity).
    assert (DQ : (0 < inject_Z d)%Q) by (apply (inj_lt 0); exact DP).
    assert (ME : (inject_Z (Z.pos m) * tw e * inject_Z d == inject_Z (Z.pos m))%Q) by (rewrite <- Qmult_assoc, TD; ring).
    pose proof (Z.div_mod (- Z.pos m) d ltac:(lia)) as DM. pose proof (Z.mod_pos_bound (- Z.pos m) d DP) as MB. set (k := (- Z.pos m) / d) in *. clearbody k.
    split.
    + apply Qmult_lt_r with (inject_Z d); [exact DQ|]. rewrite ME. setoid_replace ((inject_Z (- k) - 1) * inject_Z d)%Q with (inject_Z ((- k - 1) * d)) by (rewrite inject_Z_mult; unfold Zminus; rewrite inject_Z_plus; change (inject_Z (-(1))) with (-1 # 1)%Q; ring). apply inj_lt. lia.
    + apply Qmult_le_r with (inject_Z d); [exact DQ|]. rewrite ME, <- inject_Z_mult. apply inj_le. lia.
Qed.
Lemma inj_lt_inv : forall a b, (inject_Z a < inject_Z b)%Q -> a < b.
Proof. intros a b H. unfold Qlt in H. cbn in H. lia. Qed.
Lemma inj_le_inv : forall a b, (inject_Z a <= inject_Z b)%Q -> a <= b.
Proof. intros a b H. unfold Qle in H. cbn in H. lia. Qed.
Lemma one64 : of64 1 0 = S754_finite false 4503599627370496 (-52).
Proof. reflexivity. Qed.
Lemma ltb_one : forall m e, Zdigits2 (Z.pos m) = 53 -> SFltb (S754_finite false m e) (of64 1 0) = (e <? -52).
Proof.
  intros m e D. rewrite one64. pose proof (digits_range 53 m D) as (R & _). change (2 ^ (53 - 1)) with (Z.pos 4503599627370496) in R. clear D. revert R. generalize 4503599627370496%positive. intros M R.
  unfold SFltb, SFcompare. destruct (Z.compare_spec e (-52)) as [->|L|G].
  - fold (Pos.compare m M). destruct (Pos.compare_spec m M) as [C|C|C]; try reflexivity. lia.
  - destruct (Z.ltb_spec e (-52)); [reflexivity|lia].
  - destruct (Z.ltb_spec e (-52)); [lia|reflexivity].
Qed.
Lemma below_one : forall m e, Zdigits2 (Z.pos m) = 53 -> (mg m e < 1)%Q -> e < -52.
Proof.
  intros m e D H. destruct (Z_lt_ge_dec e (-52)) as [|G]; [assumption|]. exfalso. apply (Qlt_not_le _ _ H). unfold mg. pose proof (digits_range 53 m D) as (R & _). change (2 ^ (53 - 1)) with (2 ^ 52) in R.
  replace e with (- (52) + (e + 52)) by lia. rewrite tw_add. rewrite (tw_Z (e + 52)) by lia. assert (1 <= 2 ^ (e + 52)) by (assert (0 < 2 ^ (e + 52)) by (apply Z.pow_pos_nonneg; lia); lia).
  setoid_replace 1%Q with (inject_Z (2 ^ 52) * (tw (- (52)) * 1))%Q by (vm_compute; reflexivity).
  apply Qle_trans with (inject_Z (Z.pos m) * (tw (- (52)) * 1))%Q; [apply Qmult_le_compat_r; [apply inj_le; exact R|vm_compute; discriminate]|].
  rewrite !(Qmult_comm (inject_Z (Z.pos m))). apply Qmult_le_compat_r; [|apply (inj_le 0); lia]. rewrite !(Qmult_comm (tw (- (52)))). apply Qmult_le_compat_r; [apply (inj_le 1); assumption|vm_compute; discriminate].
Qed.
Lemma above_one : forall m e, Zdigits2 (Z.pos m) = 53 -> (1 <= mg m e)%Q -> -52 <= e.
Proof.
  intros m e D H. destruct (exp_range m e 0 (53 + Z.max e 0) D) as (A & _); [exact H| |]. 
  - unfold mg. pose proof (digits_range 53 m D) as (_ & R). rewrite tw_add, (tw_Z 53) by lia. apply Qle_trans with (inject_Z (2 ^ 53) * tw e)%Q; [apply Qmult_le_compat_r; [apply inj_le; lia|apply Qlt_le_weak, tw_pos]|]. rewrite !(Qmult_comm (inject_Z (2 ^ 53))). apply Qmult_le_compat_r; [|vm_compute; discriminate].
    destruct (Z.max_spec e 0) as [(M & ->)|(M & ->)]; [|apply Qle_refl]. change (tw 0) with 1%Q. replace 1%Q with (tw 0) by reflexivity. setoid_replace (tw 0) with (tw (- e) * tw e)%Q by (rewrite <- tw_add; replace (- e + e) with 0 by lia; reflexivity).
    setoid_replace (tw e) with (1 * tw e)%Q at 1 by ring. apply Qmult_le_compat_r; [|apply Qlt_le_weak, tw_pos]. rewrite tw_Z by lia. apply (inj_le 1). assert (0 < 2 ^ (- e)) by (apply Z.pow_pos_nonneg; lia). lia.
  - destruct (Z_lt_ge_dec e (-52)) as [L|]; [|lia]. exfalso. assert (e = -53) by lia. subst e. unfold mg in H. pose proof (digits_range 53 m D) as (_ & R).
    apply (Qlt_not_le (inject_Z (Z.pos m) * tw (-53)) 1); [|exact H]. setoid_replace 1%Q with (inject_Z (2 ^ 53) * tw (-53))%Q by (vm_compute; reflexivity). apply Qmult_lt_r; [vm_compute; reflexivity|]. apply inj_lt. exact R.
Qed.
Lemma nr_bounds : forall n a x, (0 <= a)%Q -> (0 <= x)%Q -> nr n a x -> ((1 - inject_Z (Z.of_nat n) * u53) * a <= x /\ (1 - inject_Z (Z.of_nat n) * u53) * x <= a)%Q.
Proof.
  intros n a x A X (H1 & H2). pose proof (Lp_bern n) as B. split.
  - apply Qle_trans with (Lp n * a)%Q; [apply Qmult_le_compat_r; assumption|exact H1].
  - apply Qle_trans with (Lp n * x)%Q; [apply Qmult_le_compat_r; assumption|exact H2].
Qed.
Definition U53 : Z := 9007199254740992.
Lemma u53_U : (u53 * inject_Z U53 == 1)%Q.
Proof. vm_compute. reflexivity. Qed.
Lemma U53_pos : (0 < inject_Z U53)%Q.
Proof. vm_compute. reflexivity. Qed.
(** Comparing a fraction with a rounded number, in integers. *)
Lemma fraction_low : forall (k c d : Z) (X : Q) (v : Z), 0 <= k <= 16 -> 0 < d -> ((1 - inject_Z k * u53) * (inject_Z c / inject_Z d) <= X)%Q -> (X <= inject_Z v)%Q -> (U53 - k) * c <= v * d * U53.
Proof.
  intros k c d X v K D H1 H2. apply inj_le_inv. assert (DQ : (0 < inject_Z d)%Q) by (apply (inj_lt 0); exact D). pose proof U53_pos as UP. pose proof u53_U as UU.
  assert (H : ((1 - inject_Z k * u53) * (inject_Z c / inject_Z d) <= inject_Z v)%Q) by (eapply Qle_trans; eassumption).
  apply Qmult_le_r with (z := inject_Z d) in H; [|exact DQ]. apply Qmult_le_r with (z := inject_Z U53) in H; [|exact UP].
  rewrite !inject_Z_mult. eapply Qle_trans; [|exact H]. apply Qle_lteq. right.
  setoid_replace ((1 - inject_Z k * u53) * (inject_Z c / inject_Z d) * inject_Z d * inject_Z U53)%Q with ((inject_Z U53 - inject_Z k * (u53 * inject_Z U53)) * inject_Z c)%Q by (field; apply Qnot_eq_sym, Qlt_not_eq; exact DQ).
  rewrite UU. unfold Zminus. rewrite inject_Z_plus, inject_Z_opp. ring.
Qed.
Lemma fraction_high : forall (k c d : Z) (X : Q) (v : Z), 0 <= k <= 16 -> 0 < d -> ((1 - inject_Z k * u53) * X <= inject_Z c / inject_Z d)%Q -> (inject_Z v < X)%Q -> (U53 - k) * (v * d) < c * U53.
Proof.
  intros k c d X v K D H1 H2. apply inj_lt_inv. assert (DQ : (0 < inject_Z d)%Q) by (apply (inj_lt 0); exact D). pose proof U53_pos as UP. pose proof u53_U as UU.
  assert (PK : (0 < 1 - inject_Z k * u53)%Q). { assert (inject_Z k * u53 <= inject_Z 16 * u53)%Q by (apply Qmult_le_compat_r; [apply inj_le; lia|vm_compute; discriminate]). assert (inject_Z 16 * u53 < 1)%Q by (vm_compute; reflexivity). lra. }
  assert (H : ((1 - inject_Z k * u53) * inject_Z v < inject_Z c / inject_Z d)%Q) by (eapply Qlt_le_trans; [|exact H1]; rewrite !(Qmult_comm (1 - inject_Z k * u53)); apply Qmult_lt_r; assumption).
  apply Qmult_lt_r with (z := inject_Z d) in H; [|exact DQ]. apply Qmult_lt_r with (z := inject_Z U53) in H; [|exact UP].
  rewrite !inject_Z_mult. 
  setoid_replace (inject_Z c / inject_Z d * inject_Z d * inject_Z U53)%Q with (inject_Z c * inject_Z U53)%Q in H by (field; apply Qnot_eq_sym, Qlt_not_eq; exact DQ).
  eapply Qle_lt_trans; [|exact H]. apply Qle_lteq. right.
  setoid_replace ((1 - inject_Z k * u53) * inject_Z v * inject_Z d * inject_Z U53)%Q with ((inject_Z U53 - inject_Z k * (u53 * inject_Z U53)) * (inject_Z v * inject_Z d))%Q by ring.
  rewrite UU. unfold Zminus. rewrite inject_Z_plus, inject_Z_opp. ring.
Qed.
Lemma mid_frac : forall a b, 0 < a < 2 ^ 50 -> 0 < b < 2 ^ 50 -> mid (inject_Z a / inject_Z b).
Proof.
  intros a b A B. assert (BQ : (0 < inject_Z b)%Q) by (apply (inj_lt 0); lia). split.
  - apply Qle_shift_div_l; [exact BQ|]. apply Qle_trans with (tw (-120) * inject_Z (2 ^ 50))%Q; [rewrite !(Qmult_comm (tw (-120))); apply Qmult_le_compat_r; [apply inj_le; lia|vm_compute; discriminate]|]. apply Qle_trans with (inject_Z 1); [vm_compute; discriminate|apply inj_le; lia].
  - apply Qle_shift_div_r; [exact BQ|]. apply Qle_trans with (inject_Z (2 ^ 50)); [apply inj_le; lia|]. apply Qle_trans with (tw 120 * inject_Z 1)%Q; [vm_compute; discriminate|]. rewrite !(Qmult_comm (tw 120)). apply Qmult_le_compat_r; [apply inj_le; lia|vm_compute; discriminate].
Qed.
Definition sideOf (p q : Z) : outcome Z :=
  let r := div64 (of64 p 0) (of64 q 0) in ceilInt (div64 (of64 64 0) (if SFltb r (of64 1 0) then r else of64 1 0)).
Lemma side_ok : forall p q, 0 < p <= INT_MAX -> 0 < q <= INT_MAX -> Z.gcd p q = 1 ->
  exists v, sideOf p q = (if in_intb v then Ok v else UB) /\ 64 * Z.max p q <= v * p <= 64 * Z.max p q + p /\ (q <= p -> v = 64).
Proof.
  intros p q P Q G. unfold INT_MAX in *.
  assert (R : appr 3 (inject_Z p / inject_Z q) (div64 (of64 p 0) (of64 q 0))) by (apply (div_appr 1 1); [apply mid_int; lia|apply mid_int; lia|lia|lia|apply of64_appr; lia|apply of64_appr; lia]).
  assert (QQ : (0 < inject_Z q)%Q) by (apply (inj_lt 0); lia). assert (PQ : (0 < inject_Z p)%Q) by (apply (inj_lt 0); lia).
  assert (AQ : (0 < inject_Z p / inject_Z q)%Q) by (apply mid_pos, mid_frac; lia).
  assert (DIRECT : q <= p -> sideOf p q = Ok 64).
  { intros QP. destruct (Z.eq_dec p q) as [->|NE]; [rewrite Z.gcd_diag_nonneg in G by lia; subst q; vm_compute; reflexivity|].
    unfold sideOf. destruct R as (m & e & E & D & NR). rewrite E, ltb_one by exact D. apply nr_bounds in NR; [|apply Qlt_le_weak; exact AQ|apply Qlt_le_weak, mg_pos]. destruct NR as (N1 & _).
    destruct (Z.ltb_spec e (-52)) as [L|L]; [|vm_compute; reflexivity]. exfalso.
    destruct (Qlt_le_dec (mg m e) 1) as [B|B]; [|apply above_one in B; [lia|exact D]].
    pose proof (fraction_low 3 p q (mg m e) 1 ltac:(lia) ltac:(lia) N1 (Qlt_le_weak _ _ B)) as F. unfold U53 in F. lia. }
  destruct (Z_le_gt_dec q p) as [QP|QP].
  - exists 64. rewrite (DIRECT QP). split; [reflexivity|]. split; [|reflexivity]. rewrite Z.max_l by lia. lia.
  - rewrite Z.max_r by lia. unfold sideOf. pose proof R as (m & e & E & D & NR). apply nr_bounds in NR; [|apply Qlt_le_weak; exact AQ|apply Qlt_le_weak, mg_pos]. destruct NR as (_ & N2).
    assert (B : (mg m e < 1)%Q). { apply Qnot_le_lt. intros C. assert (C' : ((1 - inject_Z 3 * u53) * 1 <= inject_Z p / inject_Z q)%Q) by (eapply Qle_trans; [|exact N2]; rewrite !(Qmult_comm (1 - inject_Z 3 * u53)); rewrite !(Qmult_comm _ (1 - inject_Z 3 * u53)); apply Qmult_le_l; [vm_compute; reflexivity|exact C]).
      apply Qmult_le_r with (z := inject_Z q) in C'; [|exact QQ]. apply Qmult_le_r with (z := inject_Z U53) in C'; [|exact U53_pos].
      setoid_replace (inject_Z p / inject_Z q * inject_Z q * inject_Z U53)%Q with (inject_Z (p * U53)) in C' by (rewrite inject_Z_mult; field; apply Qnot_eq_sym, Qlt_not_eq; exact QQ).
      setoid_replace ((1 - inject_Z 3 * u53) * 1 * inject_Z q * inject_Z U53)%Q with ((inject_Z U53 - inject_Z 3 * (u53 * inject_Z U53)) * inject_Z q)%Q in C' by ring. rewrite u53_U in C'.
      setoid_replace ((inject_Z U53 - inject_Z 3 * 1) * inject_Z q)%Q with (inject_Z ((U53 - 3) * q)) in C' by (rewrite inject_Z_mult; unfold Zminus; rewrite inject_Z_plus, inject_Z_opp; ring).
      apply inj_le_inv in C'. unfold U53 in C'. lia. }
    rewrite E, ltb_one by exact D. apply below_one in B; [|exact D]. destruct (Z.ltb_spec e (-52)); [|lia]. rewrite <- E.
    pose proof (div_appr 1 3 (inject_Z 64) (inject_Z p / inject_Z q) (of64 64 0) _ (mid_int 64 ltac:(lia)) (mid_frac p q ltac:(lia) ltac:(lia)) ltac:(lia) ltac:(lia) (of64_appr 64 ltac:(lia)) R) as X. cbn [Nat.add] in X.
    assert (X' : appr 5 (inject_Z (64 * q) / inject_Z p) (div64 (of64 64 0) (div64 (of64 p 0) (of64 q 0)))) by (eapply appr_eq; [|exact X]; rewrite inject_Z_mult; field; split; apply Qnot_eq_sym, Qlt_not_eq; assumption).
    destruct X' as (m' & e' & E' & D' & NR'). rewrite E'. apply nr_bounds in NR'; [|apply Qlt_le_weak, mid_pos, mid_frac; lia|apply Qlt_le_weak, mg_pos]. change (Z.of_nat 5) with 5 in NR'. destruct NR' as (L1 & L2).
    cbn [ceilInt signed]. pose proof (ceil_bounds m' e') as (C1 & C2). cbv zeta in *. set (v := if 0 <=? e' then Z.pos m' * 2 ^ e' else - (- Z.pos m' / 2 ^ (- e'))) in *. exists v. split; [reflexivity|]. split; [|lia].
    pose proof (fraction_low 5 (64 * q) p _ v ltac:(lia) ltac:(lia) L1 C2) as F1.
    assert (C1' : (inject_Z (v - 1) < mg m' e')%Q) by (unfold Zminus; rewrite inject_Z_plus; change (inject_Z (-(1))) with (-1)%Q; exact C1).
    pose proof (fraction_high 5 (64 * q) p _ (v - 1) ltac:(lia) ltac:(lia) L2 C1') as F2. clearbody v. clear - P Q QP F1 F2. unfold U53 in *.
    set (x := v * p) in *. assert (EX : (v - 1) * p = x - p) by (unfold x; ring). rewrite EX in F2. clearbody x. lia.
Qed.

(** *** The bank *)
Lemma gcd_parts : forall a b, 0 < a <= INT_MAX -> 0 < b <= INT_MAX -> let g := Z.gcd a b in
  gcd64 a b = g /\ 0 < g /\ Z.quot b g = b / g /\ Z.quot a g = a / g /\ 0 < b / g <= b /\ 0 < a / g <= a /\ Z.gcd (b / g) (a / g) = 1.
Proof.
  intros a b A B g. assert (G0 : 0 < g). { pose proof (Z.gcd_nonneg a b). unfold g. destruct (Z.eq_dec (Z.gcd a b) 0) as [E|]; [apply Z.gcd_eq_0_l in E; lia|lia]. }
  assert (GA : g <= a) by (apply Z.divide_pos_le; [lia|apply Z.gcd_divide_l]). assert (GB : g <= b) by (apply Z.divide_pos_le; [lia|apply Z.gcd_divide_r]).
  split; [apply gcd64_spec; lia|]. split; [exact G0|]. split; [apply Z.quot_div_nonneg; lia|]. split; [apply Z.quot_div_nonneg; lia|].
  split; [split; [apply Z.div_str_pos; lia|apply Z.div_le_upper_bound; [lia|]; assert (1 * b <= g * b) by (apply Z.mul_le_mono_nonneg_r; lia); lia]|].
  split; [split; [apply Z.div_str_pos; lia|apply Z.div_le_upper_bound; [lia|]; assert (1 * a <= g * a) by (apply Z.mul_le_mono_nonneg_r; lia); lia]|].
  rewrite Z.gcd_comm. apply Z.gcd_div_gcd; [lia|reflexivity].
Qed.
Lemma bank_unfold : forall a b, 0 < a <= INT_MAX -> 0 < b <= INT_MAX -> let g := Z.gcd a b in let p := b / g in let q := a / g in
  exists v, sizeOk p q v /\ 64 <= v /\ buildBank a b = (if negb (in_intb v) then UB else if negb (in_intb (2 * v)) then UB else if 8192 <? 2 * v then Err else if 2 ^ 23 <? p * (2 * v) then Err else Ok (mkBank p q (q / p) (q mod p) v (2 * v))).
Proof.
  intros a b A B g p q. destruct (gcd_parts a b A B) as (E1 & G0 & E2 & E3 & P & Q & GG). fold g in E1, G0, E2, E3, P, Q, GG. fold p in E2, P, GG. fold q in E3, Q, GG.
  destruct (side_ok p q) as (v & SV & SB & _); [lia|lia|exact GG|]. exists v. split; [exact SB|].
  assert (V : 64 <= v). { destruct (Z_le_gt_dec 64 v); [assumption|]. exfalso. assert (v * p <= 63 * p) by (apply Z.mul_le_mono_nonneg_r; lia). lia. }
  split; [exact V|]. unfold buildBank. rewrite E1, E2, E3. destruct (Z.eqb_spec g 0); [lia|]. fold p q. fold (sideOf p q). rewrite SV. destruct (in_intb v) eqn:IV; cbn [obind negb]; [|reflexivity].
  destruct (in_intb (2 * v)) eqn:I2; cbn [negb]; [|reflexivity]. destruct (Z.ltb_spec 8192 (2 * v)) as [|L]; [reflexivity|]. unfold INT_MAX in *.
  assert (W : wrapu64 (wrapu64 p * wrapu64 (2 * v) * 4) = p * (2 * v) * 4). { assert (0 <= p * (2 * v) <= 2147483647 * 8192) by (split; [apply Z.mul_nonneg_nonneg; lia|apply Z.mul_le_mono_nonneg; lia]). unfold wrapu64. rewrite !(Z.mod_small p), !(Z.mod_small (2 * v)) by lia. apply Z.mod_small. lia. }
  rewrite W. change (32 * 2 ^ 20) with (2 ^ 23 * 4). rewrite (Z.quot_div_nonneg q p), (Z.rem_mod_nonneg q p) by lia.
  destruct (Z.ltb_spec (2 ^ 23 * 4) (p * (2 * v) * 4)); destruct (Z.ltb_spec (2 ^ 23) (p * (2 * v))); try lia; reflexivity.
Qed.
Definition bankOk (p q : Z) (b : bank) : Prop :=
  bk_p b = p /\ bk_q b = q /\ 0 < p <= 2 ^ 16 /\ 0 < q < 2 ^ 31 /\ q <= 64 * p /\ 64 <= bk_half b <= 4096 /\ bk_taps b = 2 * bk_half b /\ bk_base b = q / p /\ bk_phase b = q mod p /\ sizeOk p q (bk_half b) /\ p * bk_taps b <= 2 ^ 23.
Lemma bank_ok : forall a b k, 0 < a <= INT_MAX -> 0 < b <= INT_MAX -> buildBank a b = Ok k -> bankOk (b / Z.gcd a b) (a / Z.gcd a b) k.
Proof.
  intros a b k A B E. destruct (bank_unfold a b A B) as (v & SZ & V & EB). rewrite E in EB. destruct (gcd_parts a b A B) as (_ & G0 & _ & _ & P & Q & _). set (p := b / Z.gcd a b) in *. set (q := a / Z.gcd a b) in *. unfold INT_MAX in *.
  destruct (negb (in_intb v)); [discriminate|]. destruct (negb (in_intb (2 * v))); [discriminate|]. destruct (Z.ltb_spec 8192 (2 * v)); [discriminate|]. destruct (Z.ltb_spec (2 ^ 23) (p * (2 * v))); [discriminate|].
  assert (K : k = mkBank p q (q / p) (q mod p) v (2 * v)) by congruence. rewrite K. unfold bankOk. cbn [bk_p bk_q bk_half bk_taps bk_base bk_phase]. change (2 ^ 23) with 8388608 in *. change (2 ^ 16) with 65536. change (2 ^ 31) with 2147483648.
  assert (P1 : p * 128 <= p * (2 * v)) by (apply Z.mul_le_mono_nonneg_l; lia). assert (P2 : v * p <= 4096 * p) by (apply Z.mul_le_mono_nonneg_r; lia). pose proof SZ as (S1 & S2).
  repeat (split; [solve [reflexivity|lia]|]). split; [exact SZ|lia].
Qed.
Lemma bank_defined : forall a b, 0 < a <= INT_MAX -> 0 < b <= INT_MAX -> 64 * a <= (2 ^ 30 - 2) * b -> buildBank a b <> UB.
Proof.
  intros a b A B H. destruct (bank_unfold a b A B) as (v & (_ & SZ) & V & EB). rewrite EB. clear EB. destruct (gcd_parts a b A B) as (_ & G0 & _ & _ & P & Q & _).
  assert (EA : a = Z.gcd a b * (a / Z.gcd a b)) by (apply Z_div_exact_full_2; [lia|]; apply Z.mod_divide; [lia|apply Z.gcd_divide_l]).
  assert (EB : b = Z.gcd a b * (b / Z.gcd a b)) by (apply Z_div_exact_full_2; [lia|]; apply Z.mod_divide; [lia|apply Z.gcd_divide_r]).
  set (g := Z.gcd a b) in *. set (p := b / g) in *. set (q := a / g) in *. unfold INT_MAX in *. change (2 ^ 30) with 1073741824 in *.
  assert (H' : 64 * q <= (1073741824 - 2) * p). { apply Z.mul_le_mono_pos_l with g; [exact G0|]. replace (g * (64 * q)) with (64 * (g * q)) by ring. replace (g * ((1073741824 - 2) * p)) with ((1073741824 - 2) * (g * p)) by ring. rewrite <- EA, <- EB. exact H. }
  assert (V2 : v <= 1073741823). { apply Z.mul_le_mono_pos_r with p; [lia|]. lia. }
  assert (I1 : in_intb v = true) by (apply in_intb_spec; unfold in_int, INT_MIN, INT_MAX; lia). assert (I2 : in_intb (2 * v) = true) by (apply in_intb_spec; unfold in_int, INT_MIN, INT_MAX; lia).
  rewrite I1, I2. cbn [negb]. destruct (8192 <? 2 * v); [discriminate|]. destruct (2 ^ 23 <? p * (2 * v)); discriminate.
Qed.
Lemma bank_undefined : buildBank 2147483647 1 = UB.
Proof. vm_compute. reflexivity. Qed.

Lemma bank_undefined_at : exists inRate outRate, 0 < inRate <= INT_MAX /\ 0 < outRate <= INT_MAX /\ buildBank inRate outRate = UB.
Proof. exists 2147483647, 1. unfold INT_MAX. split; [lia|]. split; [lia|]. exact bank_undefined. Qed.

(** *** The length *)
Lemma length_ok : forall p q b N, bankOk p q b -> 1 <= N <= INT_MAX * AFS -> resampleLength b N <> UB /\ forall L, resampleLength b N = Ok L -> outLength p q N L /\ 1 <= L <= INT_MAX * AFS.
Proof.
  intros p q b N (EP & EQ & P & Q & _) NB. unfold resampleLength. rewrite EP, EQ. clear EP EQ. rewrite AFS_max in *. change (2 ^ 16) with 65536 in P. change (2 ^ 31) with 2147483648 in Q.
  assert (NP : 0 <= N * p <= 6597069763584 * 65536) by (split; [apply Z.mul_nonneg_nonneg; lia|apply Z.mul_le_mono_nonneg; lia]).
  unfold addL, mulL. replace (in_int64b (INT64_MAX - q + 1)) with true by (symmetry; apply in_int64b_spec; unfold in_int64, INT64_MIN, INT64_MAX; lia). cbn [obind].
  destruct (_ <? N); [split; discriminate|]. rewrite int64_small by lia. cbn [obind]. rewrite int64_small by lia. cbn [obind]. rewrite Z.quot_div_nonneg by lia. cbv zeta. set (L := (N * p + q - 1) / q).
  destruct (Z.ltb_spec L 1); cbn [orb]; [split; discriminate|]. destruct (Z.ltb_spec 6597069763584 L); [split; discriminate|]. split; [discriminate|]. intros L' E. assert (L' = L) by congruence. subst L'. split; [|lia].
  pose proof (Z.div_mod (N * p + q - 1) q ltac:(lia)) as D. pose proof (Z.mod_pos_bound (N * p + q - 1) q ltac:(lia)) as M. fold L in D. set (r := (N * p + q - 1) mod q) in *. clearbody r. clearbody L.
  unfold outLength, whole. split.
  - apply Z.div_lt_upper_bound; lia.
  - apply Z.div_le_lower_bound; lia.
Qed.

(** *** Everything together *)
Lemma obind_twice : forall {X Y R} (x : outcome X) (f : X -> outcome Y) (g : X -> Y -> R) d, obind x (fun b => obind (f b) (fun l => Ok (g b l))) = Ok d -> exists b l, x = Ok b /\ f b = Ok l /\ d = g b l.
Proof. intros X Y R x f g d H. destruct x as [b| |]; try discriminate. cbn [obind] in H. destruct (f b) as [l| |] eqn:E; try discriminate. exists b, l. cbn [obind] in H. split; [reflexivity|]. split; [exact E|congruence]. Qed.
Lemma obind_defined : forall {X Y R} (x : outcome X) (f : X -> outcome Y) (g : X -> Y -> R), x <> UB -> (forall b, x = Ok b -> f b <> UB) -> obind x (fun b => obind (f b) (fun l => Ok (g b l))) <> UB.
Proof. intros X Y R x f g H1 H2. destruct x as [b| |]; cbn [obind]; try congruence; try discriminate. specialize (H2 b eq_refl). destruct (f b); cbn [obind]; congruence. Qed.
Lemma makePlan_diff : forall inRate outRate N mix silent numIn numOut ovf, outRate <> inRate ->
  makePlan inRate outRate N mix silent numIn numOut ovf = obind (buildBank inRate outRate) (fun b => obind (resampleLength b N) (fun L => Ok (mkPlan b true mix silent numIn numOut L ovf))).
Proof. intros. unfold makePlan. apply Z.eqb_neq in H. rewrite H. reflexivity. Qed.
Lemma makePlan_some : forall inRate outRate N mix silent numIn numOut ovf d, outRate <> inRate -> makePlan inRate outRate N mix silent numIn numOut ovf = Ok d ->
  exists b L, buildBank inRate outRate = Ok b /\ resampleLength b N = Ok L /\ d = mkPlan b true mix silent numIn numOut L ovf.
Proof. intros. rewrite makePlan_diff in H0 by assumption. apply obind_twice in H0. exact H0. Qed.
Lemma makePlan_same : forall inRate N mix silent numIn numOut ovf, makePlan inRate inRate N mix silent numIn numOut ovf = Ok (mkPlan bank0 false mix silent numIn numOut N ovf).
Proof. intros. unfold makePlan. rewrite Z.eqb_refl. reflexivity. Qed.
Section Whole.
Context {S D : Type}.
Variable load : S -> fl.
Variable store : Z -> Z -> fl -> outcome (D * bool).
Variable coeff : Z -> Z -> fl.
Variable silence : D.
Variables (src : clip (Z -> S)) (N : Z) (s : stream (Z -> S)).
Hypothesis SV : serves src N s.
Variables (inRate outRate : Z) (mix : option (Z -> Z -> fl)) (silent : Z -> bool) (numIn numOut : Z) (ovf : bool).
Hypotheses (IR : 0 < inRate <= INT_MAX) (OR : 0 < outRate <= INT_MAX) (NI : 0 <= numIn) (NO : 0 <= numOut).
Let p := outRate / Z.gcd inRate outRate.
Let q := inRate / Z.gcd inRate outRate.
Notation mixedOf := (mixedOf load s N mix numIn).
Notation valueOf := (valueOf load s N coeff inRate outRate mix numIn).
Lemma plan_shape : forall d, makePlan inRate outRate N mix silent numIn numOut ovf = Ok d ->
  planOk N d /\ pl_mix d = mix /\ pl_silent d = silent /\ pl_in d = numIn /\ pl_out d = numOut /\ pl_overflowError d = ovf /\ pl_doResample d = negb (outRate =? inRate) /\
  (outRate = inRate -> pl_len d = N) /\ (outRate <> inRate -> bk_p (pl_bank d) = p /\ bk_q (pl_bank d) = q /\ sizeOk p q (bk_half (pl_bank d)) /\ outLength p q N (pl_len d)).
Proof.
  intros d E. pose proof (clip_bound src N s SV) as CB. destruct (Z.eqb_spec outRate inRate) as [EQ|NE]; cbn [negb].
  - rewrite EQ, makePlan_same in E. assert (d = mkPlan bank0 false mix silent numIn numOut N ovf) by congruence. subst d. cbn [pl_mix pl_silent pl_in pl_out pl_overflowError pl_doResample pl_len pl_bank]. split; [|do 6 (split; [reflexivity|]); split; [reflexivity|]; intros; congruence]. unfold planOk. cbn [pl_mix pl_silent pl_in pl_out pl_overflowError pl_doResample pl_len pl_bank]. split; [exact NI|]. split; [exact NO|]. split; [exact CB|reflexivity].
  - apply makePlan_some in E; [|exact NE]. destruct E as (b & L & EB & EL & ->). cbn [pl_mix pl_silent pl_in pl_out pl_overflowError pl_doResample pl_len pl_bank]. pose proof (bank_ok _ _ _ IR OR EB) as BK. fold p q in BK. destruct (length_ok p q b N BK CB) as (_ & LL). destruct (LL L EL) as (OL & LB).
    pose proof BK as (B1 & B2 & B3 & B4 & B5 & B6 & B7 & B8 & B9 & B10 & _).
    split. { unfold planOk. cbn [pl_mix pl_silent pl_in pl_out pl_overflowError pl_doResample pl_len pl_bank]. rewrite B1, B2. split; [exact NI|]. split; [exact NO|]. split; [exact LB|]. split; [exact B3|]. split; [exact B4|]. split; [exact B5|]. split; [lia|]. split; [exact B7|]. split; [exact B8|]. split; [exact B9|]. exact OL. }
    do 5 (split; [reflexivity|]). split; [reflexivity|]. split; [congruence|]. intros _. rewrite B1, B2. split; [reflexivity|]. split; [reflexivity|]. split; [exact B10|exact OL].
Qed.
Theorem resample_correct : forall d, makePlan inRate outRate N mix silent numIn numOut ovf = Ok d ->
  exists half, (outRate = inRate -> pl_len d = N) /\ (outRate <> inRate -> sizeOk p q half /\ outLength p q N (pl_len d)) /\
    forall n, 0 <= n -> AFS * n < pl_len d -> resampleFrame load store coeff d silence src n = storedFrame store (valueOf half) silent silence numOut (pl_len d) ovf n.
Proof.
  intros d E. destruct (plan_shape d E) as (PO & E1 & E2 & E3 & E4 & E5 & E6 & E7 & E8). exists (bk_half (pl_bank d)). split; [exact E7|]. split; [intros NE; destruct (E8 NE) as (_ & _ & A & B); split; assumption|].
  intros n N0 NL. rewrite (frame_ok load store coeff silence src N s SV d PO n N0 NL). rewrite E2, E4, E5.
  assert (V : forall oc m, valueAt load coeff N s d oc m = valueOf (bk_half (pl_bank d)) oc m).
  { intros oc m. unfold valueAt, ResampleSpec.valueOf. rewrite E6. assert (M : mixedAt load N s d = mixedOf) by (unfold mixedAt, ResampleSpec.mixedOf; rewrite E1, E3; reflexivity). destruct (Z.eqb_spec outRate inRate) as [EQ|NE]; cbn [negb]; [rewrite M; reflexivity|]. destruct (E8 NE) as (-> & -> & _). rewrite M. reflexivity. }
  unfold storedFrame. f_equal. apply inOrder_ext. intros oc _. unfold storedChannel. destruct (silent oc); [reflexivity|]. f_equal. apply inOrder_ext. intros i _. rewrite V. reflexivity.
Qed.
Theorem resample_requests : forall d, makePlan inRate outRate N mix silent numIn numOut ovf = Ok d ->
  forall n, 0 <= n -> AFS * n < pl_len d -> exists l, resampleRequests d (c_frames src) n = Ok (map (fun f => (O, f)) l) /\ l <> [] /\ NoDup l /\ (forall f, In f l -> 0 <= f < c_frames src) /\ (outRate = inRate -> l = [n]).
Proof.
  intros d E n N0 NL. destruct (plan_shape d E) as (PO & _ & _ & _ & _ & _ & E6 & _). destruct (requests_near src N s SV d PO n N0 NL) as (l & RQ & NE & ND & IN). exists l. split; [exact RQ|]. split; [exact NE|]. split; [exact ND|]. split; [exact IN|]. intros EQ.
  rewrite EQ, Z.eqb_refl in E6. cbn [negb] in E6. destruct (range_ok src N s SV d PO n N0 NL) as (r & ER & G). destruct (resampleRequests_ok src N s SV d n r ER G) as (RQ' & _).
  assert (EL : map (fun f => (O, f)) l = map (fun f => (O, f)) (frameList (frameRange (c_frames src) r))) by congruence.
  assert (EL' : l = frameList (frameRange (c_frames src) r)). { apply (f_equal (map snd)) in EL. rewrite !map_map in EL. cbn [snd] in EL. rewrite !map_id in EL. exact EL. }
  destruct (frameRange_ok src N s SV d n r G) as (F1 & F2 & F3 & F4). pose proof (gr_res _ _ _ _ G) as GR. rewrite E6 in GR. destruct GR as (G1 & G2). pose proof (gr_count _ _ _ _ G) as GC. pose proof (gr_pos _ _ _ _ G) as GP. change AFS with 3072 in *.
  assert (A1 : rg_firstIn r / 3072 = n) by (rewrite G1; symmetry; apply Z.div_unique with 0; lia). assert (A2 : rg_lastIn r / 3072 = n) by (rewrite G2; symmetry; apply Z.div_unique with (rg_outCount r - 1); lia).
  rewrite EL'. unfold frameList. rewrite A1 in F1. rewrite A2 in F2.
  assert (fst (frameRange (c_frames src) r) = n) by lia. assert (snd (frameRange (c_frames src) r) = n) by lia. rewrite H, H0. replace (n - n + 1) with 1 by lia. change (zseq 1) with [0]. cbn [map]. f_equal. lia.
Qed.
Theorem resample_defined : 64 * inRate <= (2 ^ 30 - 2) * outRate -> makePlan inRate outRate N mix silent numIn numOut ovf <> UB.
Proof.
  intros H. destruct (Z.eq_dec outRate inRate) as [EQ|NE]; [rewrite EQ, makePlan_same; discriminate|]. rewrite makePlan_diff by exact NE. apply obind_defined; [exact (bank_defined _ _ IR OR H)|]. intros b EB.
  pose proof (bank_ok _ _ _ IR OR EB) as BK. exact (proj1 (length_ok _ _ b N BK (clip_bound src N s SV))).
Qed.
End Whole.
