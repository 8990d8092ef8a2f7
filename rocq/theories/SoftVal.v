(** Doubles that are zero or normal, by their exact values: comparison, scaling by powers of two, addition. *)
From Coq Require Import ZArith QArith Qpower Lqa Lia Bool.
From Coq Require Import SpecFloat.
From Verif Require Import Common Soft SoftLemmas SoftBounds SoftRound SoftNum SoftErr SoftAdd.
Open Scope Z_scope.

Definition sc : Z := 1074.
Definition norm (x : fl) : Prop :=
  match x with S754_zero _ => True | S754_finite s m e => Zdigits2 (Z.pos m) = 53 /\ - sc <= e <= 971 | _ => False end.
(** The value in units of 2^-1074. *)
Definition V (x : fl) : Z := match x with S754_finite s m e => signed s (Z.pos m) * 2 ^ (e + sc) | _ => 0 end.
(** [x] has a value of at most 2^[b] and is zero or at least 2^[a]. *)
Definition within (a b : Z) (x : fl) : Prop := match x with S754_finite s m e => a - 52 <= e <= b - 53 | _ => True end.

Lemma digits53 : forall m, Zdigits2 (Z.pos m) = 53 -> 2 ^ 52 <= Z.pos m < 2 ^ 53.
Proof. intros m D. exact (digits_range 53 m D). Qed.
Lemma pow_pos : forall n, 0 <= n -> 0 < 2 ^ n.
Proof. intros; apply Z.pow_pos_nonneg; lia. Qed.

Lemma of64_val : forall n k, Z.abs n < 2 ^ 53 -> -1000 <= k <= 900 -> norm (of64 n k) /\ V (of64 n k) = n * 2 ^ (k + sc).
Proof.
  intros n k B K. assert (SC : sc = 1074) by reflexivity. assert (G : forall s p, Z.pos p < 2 ^ 53 -> norm (binary_round 53 1024 s p k) /\ V (binary_round 53 1024 s p k) = signed s (Z.pos p) * 2 ^ (k + sc)).
  { intros s p P. assert (D : 1 <= Zdigits2 (Z.pos p) <= 53). { split; [cbn; lia|]. apply Zdigits2_le; lia. }
    rewrite (round_exact 53 1024 ltac:(lia)); [|lia|unfold SpecFloat.emin; lia|lia]. set (d := Zdigits2 (Z.pos p)) in *.
    assert (PP : 0 < Z.pos p * 2 ^ (53 - d)) by (apply Z.mul_pos_pos; [lia|apply pow_pos; lia]). cbn [norm V]. rewrite Z2Pos.id by exact PP. split.
    - split; [|lia]. rewrite Zdigits2_mul by lia. fold d. lia.
    - replace (2 ^ (k + sc)) with (2 ^ (53 - d) * 2 ^ (d + k - 53 + sc)) by (rewrite <- Z.pow_add_r by lia; f_equal; lia). destruct s; cbn [signed]; ring. }
  destruct n as [|p|p].
  - split; [exact I|]. rewrite Z.mul_0_l. reflexivity.
  - exact (G false p ltac:(lia)).
  - exact (G true p ltac:(lia)).
Qed.
Lemma one_pow : forall k, -1000 <= k <= 900 -> of64 1 k = S754_finite false (2 ^ 52) (k - 52).
Proof.
  intros k K. unfold of64. cbn [binary_normalize]. rewrite (round_exact 53 1024 ltac:(lia)); change (Zdigits2 1) with 1; [|lia|unfold SpecFloat.emin; lia|lia]. f_equal. lia.
Qed.

(** Scaling by a power of two. *)
Lemma mul_pow2 : forall x j a b, norm x -> within a b x -> -1000 <= j <= 900 -> -900 <= a + j -> b + j <= 1000 ->
  norm (mul64 x (of64 1 j)) /\ within (a + j) (b + j) (mul64 x (of64 1 j)) /\ forall c, 0 <= c -> 0 <= c + j -> V (mul64 x (of64 1 j)) * 2 ^ c = V x * 2 ^ (c + j).
Proof.
  intros x j a b N W J A B. rewrite one_pow by exact J. assert (SC : sc = 1074) by reflexivity. destruct x as [s|s| |s m e]; cbn [norm] in N; try contradiction.
  - unfold mul64. cbn [SFmul norm within V]. split; [exact I|]. split; [exact I|]. intros; lia.
  - destruct N as (D & E). cbn [within] in W. unfold mul64. cbn [SFmul]. rewrite xorb_false_r.
    assert (MD : Z.pos (m * 2 ^ 52) = Z.pos m * 2 ^ 52) by (rewrite Pos2Z.inj_mul; reflexivity).
    assert (DG : Zdigits2 (Z.pos (m * 2 ^ 52)) = 105) by (rewrite MD, Zdigits2_mul by lia; lia).
    assert (SB : shiftBy 53 1024 (Z.pos (m * 2 ^ 52)) (e + (j - 52)) = 52) by (unfold shiftBy; rewrite DG; unfold SpecFloat.emin; lia).
    rewrite (round_aux_exact 53 1024 ltac:(lia)); rewrite ?SB; [|lia|exists (Z.pos m); exact MD|lia].
    rewrite MD, Z.div_mul by (apply Z.pow_nonzero; lia). cbn [Z.to_pos norm within V]. split; [split; [exact D|lia]|]. split; [lia|].
    intros c C CJ. rewrite <- !Z.mul_assoc, <- !Z.pow_add_r by lia. do 2 f_equal. lia.
Qed.

(** Comparison. *)
Lemma V_sign : forall m e, - sc <= e -> 0 < Z.pos m * 2 ^ (e + sc).
Proof. intros. apply Z.mul_pos_pos; [lia|apply pow_pos; lia]. Qed.
Lemma cmp_pos : forall m1 e1 m2 e2, Zdigits2 (Z.pos m1) = 53 -> Zdigits2 (Z.pos m2) = 53 -> - sc <= e1 -> - sc <= e2 ->
  (match e1 ?= e2 with Lt => Lt | Gt => Gt | Eq => Pos.compare_cont Eq m1 m2 end) = (Z.pos m1 * 2 ^ (e1 + sc) ?= Z.pos m2 * 2 ^ (e2 + sc)).
Proof.
  assert (G : forall m1 e1 m2 e2, Zdigits2 (Z.pos m1) = 53 -> Zdigits2 (Z.pos m2) = 53 -> - sc <= e1 -> - sc <= e2 -> e1 < e2 -> Z.pos m1 * 2 ^ (e1 + sc) < Z.pos m2 * 2 ^ (e2 + sc)).
  { intros m1 e1 m2 e2 D1 D2 E1 E2 L. apply digits53 in D1. apply digits53 in D2. apply Z.lt_le_trans with (2 ^ 53 * 2 ^ (e1 + sc)); [apply Z.mul_lt_mono_pos_r; [apply pow_pos; lia|lia]|].
    apply Z.le_trans with (2 ^ 52 * 2 ^ (e2 + sc)); [rewrite <- !Z.pow_add_r by lia; apply Z.pow_le_mono_r; lia|]. apply Z.mul_le_mono_nonneg_r; [apply Z.lt_le_incl, pow_pos; lia|lia]. }
  intros m1 e1 m2 e2 D1 D2 E1 E2. destruct (Z.compare_spec e1 e2) as [->|L|L].
  - fold (Pos.compare m1 m2). rewrite <- Zmult_compare_compat_r by (pose proof (pow_pos (e2 + sc)); lia). reflexivity.
  - symmetry. apply Z.compare_lt_iff. apply G; assumption.
  - symmetry. apply Z.compare_gt_iff. apply G; assumption.
Qed.
Lemma cmp_val : forall x y, norm x -> norm y -> SFcompare x y = Some (V x ?= V y).
Proof.
  intros x y Nx Ny. destruct x as [s|s| |s1 m1 e1]; cbn [norm] in Nx; try contradiction; destruct y as [t|t| |s2 m2 e2]; cbn [norm] in Ny; try contradiction; cbn [SFcompare V].
  - reflexivity.
  - destruct Ny as (D & E & _). pose proof (V_sign m2 e2 E). destruct s2; cbn [signed]; f_equal; symmetry; [apply Z.compare_gt_iff|apply Z.compare_lt_iff]; lia.
  - destruct Nx as (D & E & _). pose proof (V_sign m1 e1 E). destruct s1; cbn [signed]; f_equal; symmetry; [apply Z.compare_lt_iff|apply Z.compare_gt_iff]; lia.
  - destruct Nx as (D1 & E1 & _). destruct Ny as (D2 & E2 & _). pose proof (V_sign m1 e1 E1). pose proof (V_sign m2 e2 E2). pose proof (cmp_pos m1 e1 m2 e2 D1 D2 E1 E2) as C.
    destruct s1, s2; cbn [signed].
    + f_equal. replace (- Z.pos m1 * 2 ^ (e1 + sc)) with (- (Z.pos m1 * 2 ^ (e1 + sc))) by ring. replace (- Z.pos m2 * 2 ^ (e2 + sc)) with (- (Z.pos m2 * 2 ^ (e2 + sc))) by ring. rewrite Z.compare_opp, (Z.compare_antisym (Z.pos m1 * 2 ^ (e1 + sc)) (Z.pos m2 * 2 ^ (e2 + sc))), <- C. destruct (e1 ?= e2); reflexivity.
    + f_equal. symmetry. apply Z.compare_lt_iff. lia.
    + f_equal. symmetry. apply Z.compare_gt_iff. lia.
    + f_equal. rewrite <- C. destruct (e1 ?= e2); reflexivity.
Qed.
Lemma ltb_val : forall x y, norm x -> norm y -> SFltb x y = (V x <? V y).
Proof. intros x y X Y. unfold SFltb. rewrite cmp_val by assumption. reflexivity. Qed.
Lemma eqb_val : forall x y, norm x -> norm y -> SFeqb x y = (V x =? V y).
Proof. intros x y X Y. unfold SFeqb. rewrite cmp_val by assumption. rewrite <- Z.eqb_compare. destruct (V x ?= V y) eqn:E; rewrite Z.eqb_compare, E; reflexivity. Qed.

(** Addition: correctly rounded; exact when the sum has at most 53 binary digits. *)
Lemma inj_le_Z : forall a b, (inject_Z a <= inject_Z b)%Q -> a <= b.
Proof. intros a b H. unfold Qle in H. cbn in H. lia. Qed.
Lemma mg_scaled : forall m e, - sc <= e -> (mg m e * tw sc == inject_Z (Z.pos m * 2 ^ (e + sc)))%Q.
Proof. intros m e E. unfold mg. rewrite <- Qmult_assoc, <- tw_add, tw_Z, <- inject_Z_mult by lia. reflexivity. Qed.
Lemma near_Z : forall m e q e', - sc <= e -> - sc <= e' -> near (ulo 53) (uhi 53) (mg m e) (mg q e') ->
  Z.abs (Z.pos q * 2 ^ (e' + sc) - Z.pos m * 2 ^ (e + sc)) * 2 ^ 53 <= Z.pos m * 2 ^ (e + sc).
Proof.
  intros m e q e' E E' (N1 & N2). pose proof (tw_pos sc) as TP. pose proof (mg_scaled m e E) as S1. pose proof (mg_scaled q e' E') as S2.
  assert (U : (tw (-53) * inject_Z (2 ^ 53) == 1)%Q) by (vm_compute; reflexivity). assert (P53 : (0 < inject_Z (2 ^ 53))%Q) by (vm_compute; reflexivity).
  apply Qmult_le_r with (z := tw sc) in N1; [|exact TP]. apply Qmult_le_r with (z := tw sc) in N2; [|exact TP]. rewrite <- Qmult_assoc in N1. rewrite <- Qmult_assoc in N2. rewrite S1, S2 in N1, N2.
  set (M := Z.pos m * 2 ^ (e + sc)) in *. set (Q := Z.pos q * 2 ^ (e' + sc)) in *. clearbody M Q. unfold ulo, uhi in *. change (- (53)) with (-53) in *.
  apply Qmult_le_r with (z := inject_Z (2 ^ 53)) in N1; [|exact P53]. apply Qmult_le_r with (z := inject_Z (2 ^ 53)) in N2; [|exact P53].
  assert (A1 : (2 ^ 53 - 1) * M <= Q * 2 ^ 53). { apply inj_le_Z. rewrite !inject_Z_mult. eapply Qle_trans; [|exact N1]. apply Qle_lteq. right. setoid_replace ((1 - tw (-53)) * inject_Z M * inject_Z (2 ^ 53))%Q with ((inject_Z (2 ^ 53) - tw (-53) * inject_Z (2 ^ 53)) * inject_Z M)%Q by ring. rewrite U. reflexivity. }
  assert (A2 : Q * 2 ^ 53 <= (2 ^ 53 + 1) * M). { apply inj_le_Z. rewrite !inject_Z_mult. eapply Qle_trans; [exact N2|]. apply Qle_lteq. right. setoid_replace ((1 + tw (-53)) * inject_Z M * inject_Z (2 ^ 53))%Q with ((inject_Z (2 ^ 53) + tw (-53) * inject_Z (2 ^ 53)) * inject_Z M)%Q by ring. rewrite U. reflexivity. }
  lia.
Qed.
Definition close (S r : Z) : Prop := Z.abs (r - S) * 2 ^ 53 <= Z.abs S.
Definition fits53 (S : Z) : Prop := exists n c, 0 <= c /\ Z.abs n < 2 ^ 53 /\ S = n * 2 ^ c.
Lemma round_val : forall s m e, -900 <= e -> Zdigits2 (Z.pos m) + e <= 1000 -> let S := signed s (Z.pos m) * 2 ^ (e + sc) in
  norm (binary_round 53 1024 s m e) /\ close S (V (binary_round 53 1024 s m e)) /\ (fits53 S -> V (binary_round 53 1024 s m e) = S) /\ within e (Zdigits2 (Z.pos m) + e + 1) (binary_round 53 1024 s m e).
Proof.
  intros s m e E1 E2 S. assert (SC : sc = 1074) by reflexivity. assert (DP : 1 <= Zdigits2 (Z.pos m)) by (cbn; lia).
  destruct (round_rel 53 1024 ltac:(lia) s m e) as (q & e' & R & D & EE & NR); [unfold SpecFloat.emin; lia|lia|]. rewrite R. cbn [norm V within]. split; [split; [exact D|lia]|].
  pose proof (near_Z m e q e' ltac:(lia) ltac:(lia) NR) as NZ. clear NR R.
  assert (CL : close S (signed s (Z.pos q) * 2 ^ (e' + sc))). { unfold close, S. set (A := Z.pos q * 2 ^ (e' + sc)) in *. set (B := Z.pos m * 2 ^ (e + sc)) in *. assert (0 <= B) by (unfold B; apply Z.mul_nonneg_nonneg; [lia|apply Z.lt_le_incl, pow_pos; lia]). destruct s; cbn [signed]; rewrite ?Z.mul_opp_l; fold A B; lia. }
  split; [exact CL|]. split; [|lia]. intros (n & c & C & NB & ES).
  pose proof (digits2_bound m) as UB. pose proof (digits2_low m) as LB. change (Z.pos (digits2_pos m)) with (Zdigits2 (Z.pos m)) in *. set (d := Zdigits2 (Z.pos m)) in *.
  (* both are multiples of 2^g *)
  set (g := d + e - 53 + sc). assert (G : 0 <= g) by (unfold g; lia).
  assert (AB : Z.abs S < 2 ^ (g + 53)). { assert (AS : Z.abs S = Z.pos m * 2 ^ (e + sc)) by (unfold S; rewrite Z.abs_mul, (Z.abs_eq (2 ^ (e + sc))) by (apply Z.lt_le_incl, pow_pos; lia); destruct s; reflexivity). rewrite AS. replace (g + 53) with (d + (e + sc)) by (unfold g; lia). rewrite (Z.pow_add_r 2 d (e + sc)) by lia. apply Z.mul_lt_mono_pos_r; [apply pow_pos; lia|exact UB]. }
  assert (AL : 2 ^ (g + 52) <= Z.abs S). { assert (AS : Z.abs S = Z.pos m * 2 ^ (e + sc)) by (unfold S; rewrite Z.abs_mul, (Z.abs_eq (2 ^ (e + sc))) by (apply Z.lt_le_incl, pow_pos; lia); destruct s; reflexivity). rewrite AS. replace (g + 52) with (d - 1 + (e + sc)) by (unfold g; lia). rewrite (Z.pow_add_r 2 (d - 1) (e + sc)) by lia. apply Z.mul_le_mono_nonneg_r; [apply Z.lt_le_incl, pow_pos; lia|exact LB]. }
  assert (GC : g <= c). { destruct (Z_le_gt_dec g c); [assumption|]. exfalso. assert (Z.abs S < 2 ^ (53 + c)) by (rewrite ES, Z.abs_mul, (Z.abs_eq (2 ^ c)) by (apply Z.lt_le_incl, pow_pos; lia); rewrite Z.pow_add_r by lia; apply Z.mul_lt_mono_pos_r; [apply pow_pos; lia|exact NB]). assert (2 ^ (53 + c) <= 2 ^ (g + 52)) by (apply Z.pow_le_mono_r; lia). lia. }
  assert (M1 : S = (n * 2 ^ (c - g)) * 2 ^ g) by (rewrite <- Z.mul_assoc, <- Z.pow_add_r by lia; replace (c - g + g) with c by lia; exact ES).
  assert (M2 : signed s (Z.pos q) * 2 ^ (e' + sc) = (signed s (Z.pos q) * 2 ^ (e' + sc - g)) * 2 ^ g) by (rewrite <- Z.mul_assoc, <- Z.pow_add_r by (unfold g; lia); do 2 f_equal; lia).
  unfold close in CL. set (r := signed s (Z.pos q) * 2 ^ (e' + sc)) in *. set (a := n * 2 ^ (c - g)) in *. set (b := signed s (Z.pos q) * 2 ^ (e' + sc - g)) in *. clearbody r a b S. pose proof (pow_pos g G) as PG. rewrite Z.pow_add_r in AB by lia. clear ES AL. rewrite M1 in CL, AB |- *. rewrite M2 in CL |- *. f_equal.
  rewrite <- Z.mul_sub_distr_r, Z.abs_mul, (Z.abs_eq (2 ^ g)) in CL by lia.
  assert (H : Z.abs (b - a) * 2 ^ g * 2 ^ 53 < 2 ^ g * 2 ^ 53) by lia. clear - H PG. assert (P : 0 < 2 ^ g * 2 ^ 53) by lia. destruct (Z.eq_dec (b - a) 0); [lia|]. exfalso. assert (1 * (2 ^ g * 2 ^ 53) <= Z.abs (b - a) * (2 ^ g * 2 ^ 53)) by (apply Z.mul_le_mono_nonneg_r; lia). lia.
Qed.
Lemma add_val : forall x y a b, norm x -> norm y -> within a b x -> within a b y -> -800 <= a -> b <= 900 -> let S := V x + V y in
  norm (add64 x y) /\ close S (V (add64 x y)) /\ (fits53 S -> V (add64 x y) = S) /\ within (a - 52) (b + 2) (add64 x y).
Proof.
  intros x y a b Nx Ny Wx Wy A B S. assert (SC : sc = 1074) by reflexivity. unfold S. clear S.
  assert (CR : forall z, close z z) by (intros z; unfold close; rewrite Z.sub_diag; cbn; lia).
  assert (WM : forall x, within a b x -> within (a - 52) (b + 2) x) by (intros [| | |]; cbn [within]; intros; lia).
  destruct x as [s|s| |s1 m1 e1]; cbn [norm] in Nx; try contradiction; destruct y as [t|t| |s2 m2 e2]; cbn [norm] in Ny; try contradiction; unfold add64; cbn [SFadd].
  - destruct s, t; cbn; (split; [exact I|]; split; [apply CR|]; split; [reflexivity|exact I]).
  - change (V (S754_zero s)) with 0. rewrite Z.add_0_l. split; [exact Ny|]. split; [apply CR|]. split; [reflexivity|apply WM, Wy].
  - change (V (S754_zero t)) with 0. rewrite Z.add_0_r. split; [exact Nx|]. split; [apply CR|]. split; [reflexivity|apply WM, Wx].
  - destruct Nx as (D1 & E1). destruct Ny as (D2 & E2). cbn [within] in Wx, Wy. set (ez := Z.min e1 e2).
    pose proof (shl_align_spec m1 e1 ez) as (_ & S1). pose proof (shl_align_spec m2 e2 ez) as (_ & S2). rewrite Z.min_r in S1 by (unfold ez; lia). rewrite Z.min_r in S2 by (unfold ez; lia).
    set (n := cond_Zopp s1 (Z.pos (fst (shl_align m1 e1 ez))) + cond_Zopp s2 (Z.pos (fst (shl_align m2 e2 ez)))).
    assert (NV : n * 2 ^ (ez + sc) = V (S754_finite s1 m1 e1) + V (S754_finite s2 m2 e2)).
    { unfold n. cbn [V]. rewrite S1, S2. replace (e1 + sc) with (e1 - ez + (ez + sc)) by lia. replace (e2 + sc) with (e2 - ez + (ez + sc)) by lia. rewrite (Z.pow_add_r 2 (e1 - ez)), (Z.pow_add_r 2 (e2 - ez)) by (unfold ez; lia). destruct s1, s2; cbn [cond_Zopp signed]; ring. }
    rewrite <- NV. assert (NB : Z.abs n < 2 ^ (Z.max e1 e2 - ez + 54)).
    { pose proof (digits53 m1 D1) as B1. pose proof (digits53 m2 D2) as B2. unfold n. rewrite S1, S2.
      assert (H1 : 2 ^ (e1 - ez) <= 2 ^ (Z.max e1 e2 - ez)) by (apply Z.pow_le_mono_r; unfold ez; lia). assert (H2 : 2 ^ (e2 - ez) <= 2 ^ (Z.max e1 e2 - ez)) by (apply Z.pow_le_mono_r; unfold ez; lia).
      pose proof (pow_pos (e1 - ez) ltac:(unfold ez; lia)). pose proof (pow_pos (e2 - ez) ltac:(unfold ez; lia)). pose proof (pow_pos (Z.max e1 e2 - ez) ltac:(unfold ez; lia)).
      assert (T1 : Z.pos m1 * 2 ^ (e1 - ez) < 2 ^ 53 * 2 ^ (Z.max e1 e2 - ez)) by (apply Z.lt_le_trans with (2 ^ 53 * 2 ^ (e1 - ez)); [apply Z.mul_lt_mono_pos_r; lia|apply Z.mul_le_mono_nonneg_l; lia]).
      assert (T2 : Z.pos m2 * 2 ^ (e2 - ez) < 2 ^ 53 * 2 ^ (Z.max e1 e2 - ez)) by (apply Z.lt_le_trans with (2 ^ 53 * 2 ^ (e2 - ez)); [apply Z.mul_lt_mono_pos_r; lia|apply Z.mul_le_mono_nonneg_l; lia]).
      assert (Q1 : 0 < Z.pos m1 * 2 ^ (e1 - ez)) by (apply Z.mul_pos_pos; lia). assert (Q2 : 0 < Z.pos m2 * 2 ^ (e2 - ez)) by (apply Z.mul_pos_pos; lia).
      replace (Z.max e1 e2 - ez + 54) with (1 + (53 + (Z.max e1 e2 - ez))) by lia. rewrite (Z.pow_add_r 2 1), (Z.pow_add_r 2 53) by (unfold ez; lia). change (2 ^ 1) with 2.
      set (T := 2 ^ 53 * 2 ^ (Z.max e1 e2 - ez)) in *. destruct s1, s2; cbn [cond_Zopp]; lia. }
    clearbody n. destruct n as [|p|p]; cbn [binary_normalize].
    + split; [exact I|]. split; [rewrite Z.mul_0_l; apply CR|]. split; [rewrite Z.mul_0_l; reflexivity|exact I].
    + assert (DP : Zdigits2 (Z.pos p) <= Z.max e1 e2 - ez + 54) by (apply Zdigits2_le; [unfold ez; lia|lia]). assert (DQ : 1 <= Zdigits2 (Z.pos p)) by (cbn; lia).
      destruct (round_val false p ez ltac:(unfold ez; lia) ltac:(unfold ez in *; lia)) as (R1 & R2 & R3 & R4). split; [exact R1|]. split; [exact R2|]. split; [exact R3|].
      destruct (binary_round 53 1024 false p ez); try exact I. cbn [within] in *. unfold ez in *. lia.
    + assert (DP : Zdigits2 (Z.pos p) <= Z.max e1 e2 - ez + 54) by (apply Zdigits2_le; [unfold ez; lia|lia]). assert (DQ : 1 <= Zdigits2 (Z.pos p)) by (cbn; lia).
      destruct (round_val true p ez ltac:(unfold ez; lia) ltac:(unfold ez in *; lia)) as (R1 & R2 & R3 & R4). split; [exact R1|]. split; [exact R2|]. split; [exact R3|].
      destruct (binary_round 53 1024 true p ez); try exact I. cbn [within] in *. unfold ez in *. lia.
Qed.
