(** Relative error of a sum of positive numbers, and errors as powers of one factor. *)
From Coq Require Import ZArith List Lia Bool QArith Qabs Qpower Lqa SpecFloat.
From Verif Require Import Common Soft SoftLemmas SoftBounds SoftErr.
Import ListNotations.
Open Scope Z_scope.

Section Add.
Variables prec emax : Z.
Hypothesis P : 1 < prec.
Lemma digits_range : forall m, Zdigits2 (Z.pos m) = prec -> 2 ^ (prec - 1) <= Z.pos m < 2 ^ prec.
Proof.
  intros m D. pose proof (digits2_low m). pose proof (digits2_bound m). change (Z.pos (digits2_pos m)) with (Zdigits2 (Z.pos m)) in *. rewrite D in *. lia.
Qed.
Lemma digits_unique : forall m n, 0 <= n -> 2 ^ n <= Z.pos m -> n + 1 <= Zdigits2 (Z.pos m).
Proof.
  intros m n N H. pose proof (digits2_bound m). change (Z.pos (digits2_pos m)) with (Zdigits2 (Z.pos m)) in *. destruct (Z_le_gt_dec (n + 1) (Zdigits2 (Z.pos m))); [assumption|].
  assert (2 ^ Zdigits2 (Z.pos m) <= 2 ^ n) by (apply Z.pow_le_mono_r; lia). lia.
Qed.
Lemma add_rel : forall m1 e1 m2 e2, Zdigits2 (Z.pos m1) = prec -> Zdigits2 (Z.pos m2) = prec ->
  SpecFloat.emin prec emax <= Z.max e1 e2 -> Z.max e1 e2 + prec + 2 <= emax ->
  exists q e', SFadd prec emax (S754_finite false m1 e1) (S754_finite false m2 e2) = S754_finite false q e' /\ Zdigits2 (Z.pos q) = prec /\
    near (ulo prec) (uhi prec) (mg m1 e1 + mg m2 e2) (mg q e').
Proof.
  intros m1 e1 m2 e2 D1 D2 E1 E2. cbn [SFadd]. set (ez := Z.min e1 e2).
  pose proof (shl_align_spec m1 e1 ez) as (A1 & A2). pose proof (shl_align_spec m2 e2 ez) as (B1 & B2). cbv zeta in *.
  set (a := fst (shl_align m1 e1 ez)) in *. set (b := fst (shl_align m2 e2 ez)) in *. clearbody a b.
  replace (Z.min e1 ez) with ez in * by lia. replace (Z.min e2 ez) with ez in * by lia.
  cbn [cond_Zopp]. rewrite <- Pos2Z.inj_add. cbn [binary_normalize].
  pose proof (digits_range m1 D1) as R1. pose proof (digits_range m2 D2) as R2.
  assert (T1 : 0 < 2 ^ (e1 - ez)) by (apply Z.pow_pos_nonneg; lia). assert (T2 : 0 < 2 ^ (e2 - ez)) by (apply Z.pow_pos_nonneg; lia).
  set (d := Zdigits2 (Z.pos (a + b))).
  assert (DL : Z.max e1 e2 - ez + prec <= d).
  { replace (Z.max e1 e2 - ez + prec) with (Z.max e1 e2 - ez + prec - 1 + 1) by lia. apply digits_unique; [lia|]. rewrite Pos2Z.inj_add, A2, B2.
    replace (Z.max e1 e2 - ez + prec - 1) with ((prec - 1) + (Z.max e1 e2 - ez)) by lia. rewrite Z.pow_add_r by lia.
    destruct (Z.max_spec e1 e2) as [[_ ->]|[_ ->]]; nia. }
  assert (DU : d <= Z.max e1 e2 - ez + prec + 1).
  { apply Zdigits2_le; [lia|]. split; [lia|]. rewrite Pos2Z.inj_add, A2, B2.
    replace (Z.max e1 e2 - ez + prec + 1) with (prec + (Z.max e1 e2 - ez) + 1) by lia. rewrite !Z.pow_add_r by lia.
    assert (2 ^ (e1 - ez) <= 2 ^ (Z.max e1 e2 - ez)) by (apply Z.pow_le_mono_r; lia). assert (2 ^ (e2 - ez) <= 2 ^ (Z.max e1 e2 - ez)) by (apply Z.pow_le_mono_r; lia).
    change (2 ^ 1) with 2. nia. }
  destruct (round_rel prec emax P false (a + b) ez) as (q & e' & R & DQ & _ & N); fold d; try lia.
  exists q, e'. split; [exact R|]. split; [exact DQ|]. eapply near_eq; [|apply Qeq_refl|exact N].
  unfold mg. rewrite Pos2Z.inj_add, A2, B2, inject_Z_plus, !inject_Z_mult, <- !tw_Z by lia.
  setoid_replace ((inject_Z (Z.pos m1) * tw (e1 - ez) + inject_Z (Z.pos m2) * tw (e2 - ez)) * tw ez)%Q
    with (inject_Z (Z.pos m1) * (tw (e1 - ez) * tw ez) + inject_Z (Z.pos m2) * (tw (e2 - ez) * tw ez))%Q by ring.
  rewrite <- !tw_add. replace (e1 - ez + ez) with e1 by lia. replace (e2 - ez + ez) with e2 by lia. reflexivity.
Qed.
End Add.

(** ** Doubles: [appr n a x]: x is a up to n roundings *)
Definition L : Q := ulo 53.
Fixpoint Lp (n : nat) : Q := match n with O => 1 | S n => L * Lp n end.
Definition nr (n : nat) (a x : Q) : Prop := (Lp n * a <= x /\ Lp n * x <= a)%Q.
Definition appr (n : nat) (a : Q) (x : spec_float) : Prop := exists m e, x = S754_finite false m e /\ Zdigits2 (Z.pos m) = 53 /\ nr n a (mg m e).
Lemma L_pos : (0 < L /\ L <= 1)%Q.
Proof. split; vm_compute; [reflexivity|discriminate]. Qed.
Lemma Lp_pos : forall n, (0 < Lp n /\ Lp n <= 1)%Q.
Proof.
  induction n as [|n (A & B)]; cbn [Lp]; [split; [reflexivity|apply Qle_refl]|]. destruct L_pos as (C & D). split; [apply Qmult_lt_0_compat; assumption|].
  apply Qle_trans with (1 * Lp n)%Q; [apply Qmult_le_compat_r; [exact D|apply Qlt_le_weak; exact A]|]. rewrite Qmult_1_l. exact B.
Qed.
Lemma Lp_add : forall a b, (Lp (a + b) == Lp a * Lp b)%Q.
Proof. induction a as [|a IH]; intros b; cbn [Lp Nat.add]; [ring|]. rewrite IH. ring. Qed.
Lemma LU : (L * uhi 53 <= 1)%Q.
Proof. vm_compute. discriminate. Qed.
(** One rounding. *)
Lemma nr_near : forall a x, (0 <= a)%Q -> near (ulo 53) (uhi 53) a x -> nr 1 a x.
Proof.
  intros a x A (X1 & X2). unfold nr. cbn [Lp]. rewrite Qmult_1_r. fold L in X1. split; [exact X1|].
  apply Qle_trans with (L * (uhi 53 * a))%Q; [|].
  - setoid_replace (L * x)%Q with (x * L)%Q by ring. setoid_replace (L * (uhi 53 * a))%Q with (uhi 53 * a * L)%Q by ring. apply Qmult_le_compat_r; [exact X2|]. apply Qlt_le_weak, L_pos.
  - setoid_replace (L * (uhi 53 * a))%Q with (L * uhi 53 * a)%Q by ring. apply Qle_trans with (1 * a)%Q; [apply Qmult_le_compat_r; [exact LU|exact A]|]. rewrite Qmult_1_l. apply Qle_refl.
Qed.
Lemma nr_trans : forall m n a x y, nr m a x -> nr n x y -> nr (m + n) a y.
Proof.
  intros m n a x y (A1 & A2) (B1 & B2). destruct (Lp_pos m) as (Pm & _). destruct (Lp_pos n) as (Pn & _). unfold nr. rewrite Lp_add. split.
  - apply Qle_trans with (Lp n * x)%Q; [|exact B1]. setoid_replace (Lp m * Lp n * a)%Q with (Lp m * a * Lp n)%Q by ring. setoid_replace (Lp n * x)%Q with (x * Lp n)%Q by ring.
    apply Qmult_le_compat_r; [exact A1|apply Qlt_le_weak; exact Pn].
  - apply Qle_trans with (Lp m * x)%Q; [|exact A2]. setoid_replace (Lp m * Lp n * y)%Q with (Lp n * y * Lp m)%Q by ring. setoid_replace (Lp m * x)%Q with (x * Lp m)%Q by ring.
    apply Qmult_le_compat_r; [exact B2|apply Qlt_le_weak; exact Pm].
Qed.
Lemma nr_mul : forall m n a x b y, (0 <= a)%Q -> (0 <= b)%Q -> (0 <= x)%Q -> (0 <= y)%Q -> nr m a x -> nr n b y -> nr (m + n) (a * b) (x * y).
Proof.
  intros m n a x b y A B X Y (A1 & A2) (B1 & B2). destruct (Lp_pos m) as (Pm & _). destruct (Lp_pos n) as (Pn & _). unfold nr. rewrite Lp_add. split.
  - setoid_replace (Lp m * Lp n * (a * b))%Q with ((Lp m * a) * (Lp n * b))%Q by ring. apply Qmult_le_compat_nonneg; split; try assumption; apply Qmult_le_0; auto using Qlt_le_weak.
  - setoid_replace (Lp m * Lp n * (x * y))%Q with ((Lp m * x) * (Lp n * y))%Q by ring. apply Qmult_le_compat_nonneg; split; try assumption; apply Qmult_le_0; auto using Qlt_le_weak.
Qed.
Lemma nr_inv : forall n a x, (0 < a)%Q -> (0 < x)%Q -> nr n a x -> nr n (/ a) (/ x).
Proof.
  assert (K : forall l a x, (0 < a)%Q -> (0 < x)%Q -> (l * x <= a)%Q -> (l * / a <= / x)%Q).
  { intros l a x A X H. apply Qle_shift_inv_l; [exact X|]. setoid_replace (l * / a * x)%Q with (l * x / a)%Q by (field; apply Qnot_eq_sym, Qlt_not_eq; exact A).
    apply Qle_shift_div_r; [exact A|]. rewrite Qmult_1_l. exact H. }
  intros n a x A X (H1 & H2). split; apply K; assumption.
Qed.
Lemma nr_add : forall n a x b y, nr n a x -> nr n b y -> nr n (a + b) (x + y).
Proof. intros n a x b y (A1 & A2) (B1 & B2). unfold nr. rewrite !Qmult_plus_distr_r. split; apply Qplus_le_compat; assumption. Qed.
Lemma nr_more : forall m n a x, (m <= n)%nat -> (0 <= a)%Q -> (0 <= x)%Q -> nr m a x -> nr n a x.
Proof.
  intros m n a x H A X (H1 & H2). replace n with ((n - m) + m)%nat by lia. unfold nr. rewrite Lp_add. destruct (Lp_pos (n - m)) as (P1 & P2). destruct (Lp_pos m) as (P3 & _).
  assert (K : forall z, (0 <= z)%Q -> (Lp (n - m) * Lp m * z <= Lp m * z)%Q).
  { intros z Z. setoid_replace (Lp (n - m) * Lp m * z)%Q with (Lp (n - m) * (Lp m * z))%Q by ring. setoid_replace (Lp m * z)%Q with (1 * (Lp m * z))%Q at 2 by ring.
    apply Qmult_le_compat_r; [exact P2|]. apply Qmult_le_0; auto using Qlt_le_weak. }
  split; [apply Qle_trans with (Lp m * a)%Q; auto | apply Qle_trans with (Lp m * x)%Q; auto].
Qed.
Lemma nr_eq : forall n a a' x x', (a == a')%Q -> (x == x')%Q -> nr n a x -> nr n a' x'.
Proof. intros n a a' x x' A X (H1 & H2). unfold nr. rewrite <- A, <- X. split; assumption. Qed.
(** Bernoulli. *)
Definition u53 : Q := tw (-53).
Lemma Lp_bern : forall n, (1 - inject_Z (Z.of_nat n) * u53 <= Lp n)%Q.
Proof.
  induction n as [|n IH]; [vm_compute; discriminate|]. cbn [Lp]. rewrite Nat2Z.inj_succ, <- Z.add_1_r, inject_Z_plus.
  change L with (1 - u53)%Q. destruct (Lp_pos n) as (P1 & P2). assert (U : (0 <= u53)%Q) by (vm_compute; discriminate).
  set (l := Lp n) in *. set (k := inject_Z (Z.of_nat n)) in *. clearbody l k. generalize dependent u53. intros u H1 H2. change (inject_Z 1) with 1%Q. nra.
Qed.
(** The exponent of a number of known size. *)
Lemma exp_range : forall m e lo hi, Zdigits2 (Z.pos m) = 53 -> (tw lo <= mg m e)%Q -> (mg m e <= tw hi)%Q -> lo - 53 <= e <= hi - 52.
Proof.
  intros m e lo hi D A B. pose proof (digits_range 53 m D) as R. unfold mg in *.
  assert (M : forall a b, (tw a < tw b)%Q -> a < b).
  { intros a b H. destruct (Z_lt_ge_dec a b); [assumption|]. exfalso. apply (Qlt_not_le _ _ H).
    replace a with ((a - b) + b) by lia. rewrite tw_add. assert (1 <= tw (a - b))%Q by (rewrite tw_Z by lia; change 1%Q with (inject_Z 1); apply inj_le; assert (0 < 2 ^ (a - b)) by (apply Z.pow_pos_nonneg; lia); lia).
    setoid_replace (tw b) with (1 * tw b)%Q at 1 by ring. apply Qmult_le_compat_r; [assumption|apply Qlt_le_weak, tw_pos]. }
  split.
  - assert (tw lo < tw (53 + e))%Q; [|apply M in H; lia]. apply Qle_lt_trans with (inject_Z (Z.pos m) * tw e)%Q; [exact A|]. rewrite tw_add, (tw_Z 53) by lia.
    apply Qmult_lt_r; [apply tw_pos|]. apply inj_lt. lia.
  - assert (tw (52 + e) < tw (hi + 1))%Q; [|apply M in H; lia]. apply Qle_lt_trans with (tw hi).
    + apply Qle_trans with (inject_Z (Z.pos m) * tw e)%Q; [|exact B]. rewrite tw_add, (tw_Z 52) by lia. apply Qmult_le_compat_r; [apply inj_le; lia|apply Qlt_le_weak, tw_pos].
    + rewrite tw_add. setoid_replace (tw hi) with (tw hi * 1)%Q at 1 by ring. apply Qmult_lt_l; [apply tw_pos|reflexivity].
Qed.
(** Values within 2^-120 .. 2^120, at most 2^40 roundings: the number itself is within 2^-121 .. 2^121. *)
Definition mid (a : Q) : Prop := (tw (-120) <= a /\ a <= tw 120)%Q.
Lemma Lp_half : forall n, Z.of_nat n <= 2 ^ 40 -> (1 # 2 <= Lp n)%Q.
Proof.
  intros n H. apply Qle_trans with (1 - inject_Z (Z.of_nat n) * u53)%Q; [|apply Lp_bern].
  assert (K : (inject_Z (Z.of_nat n) * u53 <= inject_Z (2 ^ 40) * u53)%Q) by (apply Qmult_le_compat_r; [apply inj_le; exact H|vm_compute; discriminate]).
  assert (K2 : (inject_Z (2 ^ 40) * u53 <= 1 # 2)%Q) by (vm_compute; discriminate). lra.
Qed.
Lemma appr_range : forall n a m e, mid a -> Z.of_nat n <= 2 ^ 40 -> Zdigits2 (Z.pos m) = 53 -> nr n a (mg m e) -> -174 <= e <= 69.
Proof.
  intros n a m e (A1 & A2) N D (H1 & H2). pose proof (Lp_half n N) as H. pose proof (mg_pos m e) as MP.
  assert (T1 : (tw (-121) == (1 # 2) * tw (-120))%Q) by (vm_compute; reflexivity). assert (T2 : (tw 121 == 2 * tw 120)%Q) by (vm_compute; reflexivity).
  apply (exp_range m e (-121) 121 D).
  - rewrite T1. apply Qle_trans with ((1 # 2) * a)%Q; [|].
    + setoid_replace ((1 # 2) * tw (-120))%Q with (tw (-120) * (1 # 2))%Q by ring. setoid_replace ((1 # 2) * a)%Q with (a * (1 # 2))%Q by ring. apply Qmult_le_compat_r; [exact A1|discriminate].
    + apply Qle_trans with (Lp n * a)%Q; [|exact H1]. apply Qmult_le_compat_r; [exact H|]. apply Qle_trans with (tw (-120)); [apply Qlt_le_weak, tw_pos|exact A1].
  - rewrite T2. assert (K : ((1 # 2) * mg m e <= tw 120)%Q).
    { apply Qle_trans with (Lp n * mg m e)%Q; [apply Qmult_le_compat_r; [exact H|apply Qlt_le_weak; exact MP]|]. apply Qle_trans with a; assumption. }
    generalize dependent (tw 120). intros t. intros. lra.
Qed.
(** Operations. *)
Lemma of64_appr : forall v, 0 < v < 2 ^ 64 -> appr 1 (inject_Z v) (of64 v 0).
Proof.
  intros v V. unfold of64. destruct v as [|v|v]; try lia. cbn [binary_normalize].
  assert (D : 1 <= Zdigits2 (Z.pos v) <= 64) by (split; [apply (digits_unique v 0); lia|apply Zdigits2_le; lia]).
  destruct (round_rel 53 1024 ltac:(lia) false v 0) as (q & e' & R & DQ & _ & N); cbv zeta; unfold SpecFloat.emin; try lia.
  exists q, e'. split; [exact R|]. split; [exact DQ|]. apply nr_near; [change 0%Q with (inject_Z 0); apply inj_le; lia|].
  eapply near_eq; [|apply Qeq_refl|exact N]. unfold mg. change (tw 0) with 1%Q. ring.
Qed.
Lemma mid_pos : forall a, mid a -> (0 < a)%Q.
Proof. intros a (A & _). apply Qlt_le_trans with (tw (-120)); [apply tw_pos|exact A]. Qed.
Lemma mul_appr : forall m n a b x y, mid a -> mid b -> Z.of_nat m <= 2 ^ 40 -> Z.of_nat n <= 2 ^ 40 -> appr m a x -> appr n b y -> appr (m + n + 1) (a * b) (mul64 x y).
Proof.
  intros m n a b x y A B M N (p & e & -> & D1 & N1) (q & f & -> & D2 & N2). pose proof (appr_range _ _ _ _ A M D1 N1). pose proof (appr_range _ _ _ _ B N D2 N2).
  unfold mul64. destruct (mul_rel 53 1024 ltac:(lia) false p e false q f D1 D2) as (r & g & R & DR & _ & NR); unfold SpecFloat.emin; try lia.
  exists r, g. split; [exact R|]. split; [exact DR|]. pose proof (mg_pos p e). pose proof (mg_pos q f). pose proof (mid_pos a A). pose proof (mid_pos b B).
  apply nr_trans with (mg p e * mg q f)%Q; [apply nr_mul; auto using Qlt_le_weak|]. apply nr_near; [|exact NR]. apply Qmult_le_0; auto using Qlt_le_weak.
Qed.
Lemma div_appr : forall m n a b x y, mid a -> mid b -> Z.of_nat m <= 2 ^ 40 -> Z.of_nat n <= 2 ^ 40 -> appr m a x -> appr n b y -> appr (m + n + 1) (a / b) (div64 x y).
Proof.
  intros m n a b x y A B M N (p & e & -> & D1 & N1) (q & f & -> & D2 & N2). pose proof (appr_range _ _ _ _ A M D1 N1). pose proof (appr_range _ _ _ _ B N D2 N2).
  unfold div64. destruct (div_rel 53 1024 ltac:(lia) false p e false q f D1 D2) as (r & g & R & DR & _ & NR); unfold SpecFloat.emin; try lia.
  exists r, g. split; [exact R|]. split; [exact DR|]. pose proof (mg_pos p e). pose proof (mg_pos q f). pose proof (mid_pos a A). pose proof (mid_pos b B).
  assert (IP : forall z, (0 < z)%Q -> (0 <= / z)%Q) by (intros; apply Qinv_le_0_compat, Qlt_le_weak; assumption).
  apply nr_trans with (mg p e / mg q f)%Q; [apply nr_mul; auto using Qlt_le_weak; apply nr_inv; assumption|]. apply nr_near; [|exact NR]. apply Qmult_le_0; auto using Qlt_le_weak.
Qed.
Lemma add_appr : forall m a b x y, mid a -> mid b -> Z.of_nat m <= 2 ^ 40 -> appr m a x -> appr m b y -> appr (m + 1) (a + b) (add64 x y).
Proof.
  intros m a b x y A B M (p & e & -> & D1 & N1) (q & f & -> & D2 & N2). pose proof (appr_range _ _ _ _ A M D1 N1). pose proof (appr_range _ _ _ _ B M D2 N2).
  unfold add64. destruct (add_rel 53 1024 ltac:(lia) p e q f D1 D2) as (r & g & R & DR & NR); unfold SpecFloat.emin; try lia.
  exists r, g. split; [exact R|]. split; [exact DR|]. pose proof (mg_pos p e). pose proof (mg_pos q f).
  apply nr_trans with (mg p e + mg q f)%Q; [apply nr_add; assumption|]. apply nr_near; [|exact NR]. apply Qlt_le_weak. lra.
Qed.
Lemma appr_more : forall m n a x, (m <= n)%nat -> (0 <= a)%Q -> appr m a x -> appr n a x.
Proof. intros m n a x H A (p & e & E & D & N). exists p, e. split; [exact E|]. split; [exact D|]. apply nr_more with m; auto. apply Qlt_le_weak, mg_pos. Qed.
Lemma appr_eq : forall n a b x, (a == b)%Q -> appr n a x -> appr n b x.
Proof. intros n a b x H (p & e & E & D & N). exists p, e. split; [exact E|]. split; [exact D|]. eapply nr_eq; [exact H|apply Qeq_refl|exact N]. Qed.
