(** Laws of powers over the reals. *)
From Coq Require Import ZArith Reals Lra Lia Bool.
From Verif Require Import RwSyntax RwSpec.
Open Scope R_scope.

Lemma int_part_IZR : forall n, Int_part (IZR n) = n.
Proof.
  intros n. destruct (base_Int_part (IZR n)) as [H1 H2].
  assert (A1 : IZR (Int_part (IZR n)) <= IZR n) by lra. apply le_IZR in A1.
  assert (A2 : IZR (n - 1) < IZR (Int_part (IZR n))) by (rewrite minus_IZR; lra). apply lt_IZR in A2. lia.
Qed.
Lemma rpow_cases : forall a b v, rpow false a b = Some v ->
  (0 < a /\ v = Rpower a b) \/ (a = 0 /\ 0 < b /\ v = 0) \/ (a < 0 /\ exists n, b = IZR n /\ v = powerRZ a n).
Proof.
  intros a b v. unfold rpow. destruct (Rlt_dec 0 a) as [P | P]; [intros [= <-]; left; auto |].
  destruct (Req_EM_T a 0) as [Q | Q].
  - destruct (Rlt_dec 0 b); [intros [= <-]; right; left; auto | destruct (Req_EM_T b 0); discriminate].
  - destruct (Req_EM_T b (IZR (Int_part b))) as [W | W]; [| discriminate]. intros [= <-]. right; right.
    split; [lra | eauto].
Qed.
Lemma rpow_pos : forall z a b, 0 < a -> rpow z a b = Some (Rpower a b).
Proof. intros z a b H. unfold rpow. destruct (Rlt_dec 0 a); [reflexivity | lra]. Qed.
Lemma rpow_zero : forall z b, 0 < b -> rpow z 0 b = Some 0.
Proof. intros z b H. unfold rpow. destruct (Rlt_dec 0 0); [lra |]. destruct (Req_EM_T 0 0); [| lra]. destruct (Rlt_dec 0 b); [reflexivity | lra]. Qed.
Lemma rpow_int : forall z a n, a <> 0 -> rpow z a (IZR n) = Some (powerRZ a n).
Proof.
  intros z a n H. unfold rpow. destruct (Rlt_dec 0 a) as [P | P]; [rewrite powerRZ_Rpower by exact P; reflexivity |].
  destruct (Req_EM_T a 0); [contradiction |]. rewrite int_part_IZR. destruct (Req_EM_T (IZR n) (IZR n)); [reflexivity | contradiction].
Qed.
Lemma rpow_1 : forall z a, rpow z a 1 = Some a.
Proof.
  intros z a. destruct (Req_dec a 0) as [-> | H]; [apply rpow_zero; lra |].
  change 1 with (IZR 1). rewrite rpow_int by exact H. exact (f_equal Some (powerRZ_1 a)).
Qed.
Lemma rpow_add : forall a b c v w, rpow false a b = Some v -> rpow false a c = Some w -> rpow false a (b + c) = Some (v * w).
Proof.
  intros a b c v w H1 H2.
  destruct (rpow_cases _ _ _ H1) as [[P ->] | [[-> [B ->]] | [N [n [-> ->]]]]].
  - rewrite rpow_pos in H2 |- * by exact P. injection H2 as <-. rewrite Rpower_plus. reflexivity.
  - destruct (rpow_cases _ _ _ H2) as [[P _] | [[_ [C ->]] | [N _]]]; [lra | | lra]. rewrite rpow_zero by lra. f_equal. ring.
  - destruct (rpow_cases _ _ _ H2) as [[P _] | [[Z0 _] | [_ [m [-> ->]]]]]; [lra | lra |].
    rewrite <- plus_IZR, rpow_int by lra. rewrite powerRZ_add by lra. reflexivity.
Qed.
Lemma rpow_opp : forall a b v, a <> 0 -> rpow false a b = Some v -> v <> 0 /\ rpow false a (- b) = Some (/ v).
Proof.
  intros a b v A H. destruct (rpow_cases _ _ _ H) as [[P ->] | [[-> _] | [N [n [-> ->]]]]]; [| lra |].
  - split; [apply Rgt_not_eq; unfold Rpower; apply exp_pos |]. rewrite rpow_pos, Rpower_Ropp by exact P. reflexivity.
  - split; [apply powerRZ_NOR, A |]. rewrite <- opp_IZR, rpow_int, powerRZ_neg' by exact A. reflexivity.
Qed.
Lemma rpow_sqrt : forall x, 0 <= x -> rpow false x (/ 2) = Some (sqrt x).
Proof.
  intros x [H | <-]; [rewrite rpow_pos, Rpower_sqrt by exact H; reflexivity |]. rewrite rpow_zero by lra. rewrite sqrt_0. reflexivity.
Qed.
Lemma rpow_one_base : forall z b, rpow z 1 b = Some 1.
Proof. intros z b. rewrite rpow_pos by lra. unfold Rpower. rewrite ln_1, Rmult_0_r, exp_0. reflexivity. Qed.
Lemma rpow_exp0 : forall a v, rpow false a 0 = Some v -> v = 1.
Proof.
  intros a v H. destruct (rpow_cases _ _ _ H) as [[P ->] | [[_ [C _]] | [N [n [E ->]]]]]; [apply Rpower_O, P | lra |].
  change 0 with (IZR 0) in E. apply eq_IZR in E. subst n. reflexivity.
Qed.
Lemma rpow_0base : forall b v, rpow false 0 b = Some v -> v = 0.
Proof. intros b v H. destruct (rpow_cases _ _ _ H) as [[P _] | [[_ [_ E]] | [N _]]]; [lra | exact E | lra]. Qed.
Lemma powerRZ_mul : forall a n m, a <> 0 -> powerRZ (powerRZ a n) m = powerRZ a (n * m).
Proof.
  intros a n m H. pose proof (powerRZ_NOR a n H) as N. induction m as [| m IH | m IH] using Z.peano_ind.
  - rewrite Z.mul_0_r. reflexivity.
  - unfold Z.succ. rewrite Z.mul_add_distr_l, Z.mul_1_r, !powerRZ_add by assumption. rewrite IH.
    change (powerRZ (powerRZ a n) 1) with (powerRZ (powerRZ a n) (Z.succ 0)). rewrite powerRZ_1. reflexivity.
  - unfold Z.pred. rewrite Z.mul_add_distr_l, !powerRZ_add by assumption. rewrite IH. f_equal.
    change (-1)%Z with (- (1))%Z. rewrite powerRZ_neg'. change (powerRZ (powerRZ a n) 1) with (powerRZ (powerRZ a n) (Z.succ 0)).
    rewrite powerRZ_1. rewrite Z.mul_opp_r, Z.mul_1_r, powerRZ_neg'. reflexivity.
Qed.
Lemma powerRZ_even : forall a n, a <> 0 -> Z.even n = true -> powerRZ a n = powerRZ (- a) n.
Proof.
  intros a n H E. apply Z.even_spec in E. destruct E as [k ->].
  rewrite <- !powerRZ_mul by lra. assert (Q : powerRZ a 2 = powerRZ (- a) 2) by (unfold powerRZ; change (Pos.to_nat 2) with 2%nat; ring). rewrite Q. reflexivity.
Qed.
Lemma powerRZ_odd_neg : forall a n, a < 0 -> Z.even n = false -> powerRZ a n < 0.
Proof.
  intros a n H E. rewrite <- Z.negb_odd in E. apply negb_false_iff in E. apply Z.odd_spec in E. destruct E as [k ->].
  rewrite powerRZ_add by lra. rewrite <- powerRZ_mul by lra. change (powerRZ a 1) with (powerRZ a (Z.succ 0)); rewrite powerRZ_1.
  assert (P : 0 < powerRZ (powerRZ a 2) k) by (apply powerRZ_lt; unfold powerRZ; change (Pos.to_nat 2) with 2%nat; nra). nra.
Qed.
(** (a ** b) ** c with an exponent b that keeps signs, or an integer c. *)
Lemma rpow_mul_gen : forall a b c v w, rpow false a b = Some v -> rpow false v c = Some w ->
  (0 <= a \/ (exists m, c = IZR m) \/ (exists n, b = IZR n /\ Z.even n = false)) -> rpow false a (b * c) = Some w.
Proof.
  intros a b c v w H1 H2 S. destruct (rpow_cases _ _ _ H1) as [[P ->] | [[-> [B ->]] | [N [n [-> ->]]]]].
  - rewrite rpow_pos in H2 |- * by first [exact P | unfold Rpower; apply exp_pos]. injection H2 as <-. rewrite Rpower_mult. reflexivity.
  - destruct (rpow_cases _ _ _ H2) as [[P _] | [[_ [C ->]] | [N _]]]; [lra | | lra]. apply rpow_zero. apply Rmult_lt_0_compat; assumption.
  - assert (X : exists m, c = IZR m).
    { destruct S as [S | [S | [n' [E O]]]]; [lra | exact S |]. apply eq_IZR in E. subst n'.
      pose proof (powerRZ_odd_neg a n N O) as Q.
      destruct (rpow_cases _ _ _ H2) as [[P _] | [[Z0 _] | [_ [m [-> _]]]]]; [lra | lra | eauto]. }
    destruct X as [m ->]. rewrite rpow_int in H2 by (apply powerRZ_NOR; lra). injection H2 as <-.
    rewrite <- mult_IZR, rpow_int by lra. rewrite powerRZ_mul by lra. reflexivity.
Qed.
Lemma rpow_mul_abs : forall a n c v w, rpow false a (IZR n) = Some v -> Z.even n = true -> rpow false v c = Some w ->
  rpow false (Rabs a) (IZR n * c) = Some w.
Proof.
  intros a n c v w H1 E H2. destruct (Rle_or_lt 0 a) as [P | P].
  - rewrite Rabs_pos_eq by exact P. eapply rpow_mul_gen; [exact H1 | exact H2 | auto].
  - rewrite Rabs_left by exact P. refine (rpow_mul_gen (- a) (IZR n) c v w _ H2 _); [| left; lra].
    rewrite rpow_int in H1 |- * by lra. rewrite <- powerRZ_even by (lra || exact E). exact H1.
Qed.
(** integer exponents *)
Lemma rpow_prodZ : forall a b n v, rpow false (a * b) (IZR n) = Some v ->
  exists x y, rpow false a (IZR n) = Some x /\ rpow false b (IZR n) = Some y /\ v = x * y.
Proof.
  intros a b n v H. destruct (Req_dec (a * b) 0) as [Z0 | NZ].
  - rewrite Z0 in H. destruct (rpow_cases _ _ _ H) as [[P _] | [[_ [C ->]] | [N _]]]; [lra | | lra].
    assert (D : forall x, exists y, rpow false x (IZR n) = Some y).
    { intros x. destruct (Req_dec x 0) as [-> | X]; [rewrite rpow_zero by exact C | rewrite rpow_int by exact X]; eauto. }
    destruct (D a) as [x X], (D b) as [y Y]. exists x, y. split; [exact X | split; [exact Y |]].
    destruct (Rmult_integral _ _ Z0) as [-> | ->].
    + rewrite (rpow_0base _ _ X). ring.
    + rewrite (rpow_0base _ _ Y). ring.
  - assert (a <> 0 /\ b <> 0) as [NA NB] by (split; intros ->; apply NZ; ring).
    rewrite rpow_int in H by exact NZ. injection H as <-.
    exists (powerRZ a n), (powerRZ b n). rewrite !rpow_int by assumption. split; [reflexivity | split; [reflexivity |]].
    clear -NA NB. destruct n as [| p | p]; cbn; [ring | apply Rpow_mult_distr |]. rewrite Rpow_mult_distr, Rinv_mult. reflexivity.
Qed.
Lemma rpow_prodP : forall a b e v, 0 < a -> 0 < b -> rpow false (a * b) e = Some v ->
  exists x y, rpow false a e = Some x /\ rpow false b e = Some y /\ v = x * y.
Proof.
  intros a b e v A B H. rewrite rpow_pos in H by (apply Rmult_lt_0_compat; assumption). injection H as <-.
  exists (Rpower a e), (Rpower b e). rewrite !rpow_pos by assumption. rewrite <- Rpower_mult_distr by assumption. auto.
Qed.
Lemma powerRZ_inv_l : forall x n, x <> 0 -> powerRZ (/ x) n = / powerRZ x n.
Proof. intros x n H. destruct n as [| p | p]; cbn; [field | rewrite pow_inv; reflexivity | rewrite pow_inv; reflexivity]. Qed.
Lemma rpow_inv : forall a e v, a <> 0 -> rpow false (/ a) e = Some v -> rpow false a (- e) = Some v.
Proof.
  intros a e v A H. destruct (rpow_cases _ _ _ H) as [[P ->] | [[Z0 _] | [N [n [-> ->]]]]].
  - assert (0 < a) by (rewrite <- (Rinv_inv a); apply Rinv_0_lt_compat, P).
    rewrite rpow_pos by assumption. unfold Rpower. rewrite ln_Rinv by assumption. do 2 f_equal. ring.
  - exfalso. exact (Rinv_neq_0_compat a A Z0).
  - rewrite <- opp_IZR, rpow_int by exact A. f_equal. rewrite powerRZ_neg', powerRZ_inv_l by exact A. reflexivity.
Qed.
