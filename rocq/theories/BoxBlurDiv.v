(** The multiplication by a magic number divides exactly. *)
From Coq Require Import ZArith List Lia Bool.
From Verif Require Import Common BoxBlur.
Import ListNotations.
Open Scope Z_scope.

Lemma log2Loop_spec : forall fuel d l, 1 <= d -> 0 <= l <= Z.log2 d -> Z.log2 d - l <= Z.of_nat fuel -> log2Loop fuel d l = Z.log2 d.
Proof.
  induction fuel as [|fuel IH]; intros d l D L F; [cbn; lia|]. cbn [log2Loop].
  destruct (Z.log2_spec d ltac:(lia)) as (S1 & S2). rewrite Z.shiftr_div_pow2 by lia.
  assert (P : 0 < 2 ^ l) by (apply Z.pow_pos_nonneg; lia).
  destruct (Z.ltb_spec 1 (d / 2 ^ l)) as [G|G].
  - apply IH; [lia| |lia]. split; [lia|].
    assert (2 * 2 ^ l <= d). { assert (2 <= d / 2 ^ l) by lia. pose proof (Z.mul_div_le d (2 ^ l) P). nia. }
    apply Z.log2_le_pow2; [lia|]. rewrite <- Z.pow_succ_r in H by lia. exact H.
  - destruct (Z.eq_dec l (Z.log2 d)) as [E|N]; [exact E|]. exfalso.
    assert (2 ^ (Z.succ l) <= 2 ^ Z.log2 d) by (apply Z.pow_le_mono_r; lia). rewrite Z.pow_succ_r in H by lia.
    assert (2 <= d / 2 ^ l) by (apply Z.div_le_lower_bound; lia). lia.
Qed.

(** d & (d - 1) vanishes exactly for powers of two. *)
Lemma power_test : forall d, 1 <= d -> (Z.land d (d - 1) = 0 <-> d = 2 ^ Z.log2 d).
Proof.
  intros d D. destruct (Z.log2_spec d ltac:(lia)) as (S1 & S2). pose proof (Z.log2_nonneg d) as L. split.
  - intros E. destruct (Z.eq_dec d (2 ^ Z.log2 d)) as [Q|N]; [exact Q|]. exfalso.
    assert (B : Z.testbit (Z.land d (d - 1)) (Z.log2 d) = true).
    { rewrite Z.land_spec, Z.bit_log2 by lia. cbn [andb].
      assert (L2 : Z.log2 (d - 1) = Z.log2 d). { apply Z.log2_unique; lia. }
      rewrite <- L2. apply Z.bit_log2. assert (0 < 2 ^ Z.log2 d) by (apply Z.pow_pos_nonneg; lia). lia. }
    rewrite E, Z.bits_0 in B. discriminate.
  - intros E. rewrite E at 1 2. replace (2 ^ Z.log2 d - 1) with (Z.ones (Z.log2 d)) by (rewrite Z.ones_equiv; lia).
    rewrite Z.land_ones by lia. apply Z.mod_same. apply Z.pow_nonzero; lia.
Qed.

Lemma magic_div : forall M d D e n, 0 < d -> 0 < D -> M * d = D + e -> 0 <= e -> 0 <= n -> e * n < D -> M * n / D = n / d.
Proof.
  intros M d D e n D1 D2 E E0 N B. symmetry. pose proof (Z.div_mod n d ltac:(lia)) as Q. pose proof (Z.mod_pos_bound n d D1) as R.
  apply (Z.div_unique_pos (M * n) D (n / d) (M * n - D * (n / d))); [|lia].
  assert (X : (M * n) * d = D * n + e * n) by (replace (M * n * d) with (M * d * n) by ring; rewrite E; ring).
  assert (EN : 0 <= e * n) by (apply Z.mul_nonneg_nonneg; lia).
  assert (D * (n / d) * d <= M * n * d). { rewrite X. replace (D * (n / d) * d) with (D * (d * (n / d))) by ring.
    assert (D * (d * (n / d)) <= D * n) by (apply Z.mul_le_mono_nonneg_l; lia). lia. }
  assert (M * n * d < (D * (n / d) + D) * d).
  { rewrite X. replace ((D * (n / d) + D) * d) with (D * (d * (n / d) + d)) by ring.
    assert (D * (n + 1) <= D * (d * (n / d) + d)) by (apply Z.mul_le_mono_nonneg_l; lia). lia. }
  split; [assert (D * (n / d) <= M * n) by (apply (Zmult_le_reg_r _ _ d); lia); lia | assert (M * n < D * (n / d) + D) by (apply (Zmult_lt_reg_r _ _ d); lia); lia].
Qed.

Lemma u32_id : forall x, 0 <= x < 2 ^ 32 -> wrapu32 x = x.
Proof. intros x X. unfold wrapu32. apply Z.mod_small. exact X. Qed.
Lemma u64_id : forall x, 0 <= x < 2 ^ 64 -> wrapu64 x = x.
Proof. intros x X. unfold wrapu64. apply Z.mod_small. exact X. Qed.

(** What the construction guarantees: [M] is the full multiplier, [s] the full shift. *)
Definition divides (d : Z) (fd : fastDiv) : Prop :=
  (fd_magic fd = 0 /\ 0 <= fd_shift fd /\ d = 2 ^ fd_shift fd) \/
  (0 < fd_magic fd < 2 ^ 32 /\ 0 <= fd_shift fd < 32 /\
   exists e, let M := if fd_add fd then 2 ^ 32 + fd_magic fd else fd_magic fd in
             let D := 2 ^ 32 * (if fd_add fd then 2 * 2 ^ fd_shift fd else 2 ^ fd_shift fd) in
   M * d = D + e /\ 0 <= e /\ e * 2 ^ 32 <= D).

Lemma makeFastDiv_spec : forall d, 1 <= d < 2 ^ 32 -> divides d (makeFastDiv d).
Proof.
  intros d D. unfold makeFastDiv. pose proof (Z.log2_nonneg d) as L0.
  assert (L1 : Z.log2 d < 32) by (apply Z.log2_lt_pow2; lia).
  rewrite log2Loop_spec by (cbn; lia). set (l := Z.log2 d) in *.
  destruct (Z.log2_spec d ltac:(lia)) as (S1 & S2). fold l in S1, S2. rewrite Z.pow_succ_r in S2 by lia.
  rewrite u32_id by lia. pose proof (power_test d ltac:(lia)) as PT. fold l in PT.
  destruct (Z.eqb_spec (Z.land d (d - 1)) 0) as [E|E].
  { left. cbn [fd_magic fd_shift]. split; [reflexivity|]. split; [lia|]. apply PT. exact E. }
  assert (NE : d <> 2 ^ l) by (intros Q; apply E; apply PT; exact Q).
  rewrite !Z.shiftl_1_l. rewrite Z.pow_add_r by lia. set (P := 2 ^ l) in *. set (N := 2 ^ 32) in *.
  assert (P1 : 1 <= P) by (unfold P; pose proof (Z.pow_pos_nonneg 2 l); lia).
  assert (PB : P <= 2 ^ 31) by (unfold P; apply Z.pow_le_mono_r; lia).
  assert (NV : N = 2 * 2 ^ 31) by reflexivity. assert (N31 : 0 < 2 ^ 31) by reflexivity.
  assert (NP : N * P < 2 ^ 64). { change (2 ^ 64) with (N * N). apply Z.mul_lt_mono_pos_l; lia. }
  rewrite (u64_id (N * P)) by nia.
  pose proof (Z.div_mod (N * P) d ltac:(lia)) as QR. pose proof (Z.mod_pos_bound (N * P) d ltac:(lia)) as RB.
  set (m := N * P / d) in *. set (rem := (N * P) mod d) in *.
  assert (MU : m < N - 1). { unfold m. apply Z.div_lt_upper_bound; [lia|]. nia. }
  assert (ML : 2 ^ 31 <= m). { unfold m. apply Z.div_le_lower_bound; [lia|]. nia. }
  rewrite (u32_id m) by (fold N; lia). replace (N * P - m * d) with rem by lia.
  rewrite (u32_id rem) by (fold N; lia). rewrite (u32_id (d - rem)) by (fold N; lia).
  destruct (Z.ltb_spec (d - rem) P) as [C|C].
  - right. cbn [fd_magic fd_shift fd_add]. rewrite u32_id by (fold N; lia). fold N. fold P. split; [lia|]. split; [lia|].
    exists (d - rem). split; [nia|]. split; [lia|]. rewrite (Z.mul_comm N P). apply Z.mul_le_mono_nonneg_r; lia.
  - set (b := if d <=? 2 * rem then 1 else 0).
    assert (TW : (if (d <=? wrapu32 (rem + rem)) || (wrapu32 (rem + rem) <? rem) then wrapu32 (wrapu32 (m + m) + 1) else wrapu32 (m + m)) = 2 * m - N + b).
    { assert (MM : wrapu32 (m + m) = 2 * m - N).
      { unfold wrapu32. change (2 ^ 32) with N. symmetry. apply (Z.mod_unique_pos (m + m) N 1); lia. }
      assert (CB : ((d <=? wrapu32 (rem + rem)) || (wrapu32 (rem + rem) <? rem)) = (d <=? 2 * rem)).
      { destruct (Z.lt_ge_cases (rem + rem) N).
        - rewrite u32_id by (fold N; lia). replace (2 * rem) with (rem + rem) by lia.
          destruct (Z.ltb_spec (rem + rem) rem); [lia|]. apply orb_false_r.
        - replace (wrapu32 (rem + rem)) with (rem + rem - N).
          + destruct (Z.ltb_spec (rem + rem - N) rem); [|lia]. rewrite orb_true_r. symmetry. apply Z.leb_le. lia.
          + unfold wrapu32. change (2 ^ 32) with N. apply (Z.mod_unique_pos (rem + rem) N 1); lia. }
      rewrite CB, MM. unfold b. destruct (d <=? 2 * rem); [rewrite u32_id by (fold N; lia)|]; lia. }
    rewrite TW. assert (B : b = 0 \/ b = 1) by (unfold b; destruct (d <=? 2 * rem); lia).
    assert (BR : 0 <= 2 * rem - b * d < d). { unfold b. destruct (Z.leb_spec d (2 * rem)); lia. }
    right. cbn [fd_magic fd_shift fd_add]. rewrite u32_id by (fold N; lia). fold N. fold P. split; [lia|]. split; [lia|].
    exists (d - (2 * rem - b * d)). split; [nia|]. split; [lia|].
    rewrite (Z.mul_comm N (2 * P)). apply Z.mul_le_mono_nonneg_r; lia.
Qed.

Theorem fastDiv_exact : forall d n, 1 <= d < 2 ^ 32 -> 0 <= n < 2 ^ 32 -> fastDivU32 n (makeFastDiv d) = n / d.
Proof.
  intros d n D N. destruct (makeFastDiv_spec d D) as [(M & S & E)|(M & S & e & E)]; unfold fastDivU32.
  - rewrite M. cbn [Z.eqb]. rewrite Z.shiftr_div_pow2 by lia. rewrite <- E. reflexivity.
  - destruct (Z.eqb_spec (fd_magic (makeFastDiv d)) 0); [lia|].
    set (fd := makeFastDiv d) in *. clearbody fd. set (N32 := 2 ^ 32) in *. assert (NP : 0 < N32) by reflexivity.
    set (P := 2 ^ fd_shift fd) in *. assert (PP : 0 < P) by (apply Z.pow_pos_nonneg; lia).
    assert (MN : 0 <= fd_magic fd * n < N32 * N32) by (split; [apply Z.mul_nonneg_nonneg; lia | apply Z.mul_lt_mono_nonneg; lia]).
    rewrite u64_id by (change (2 ^ 64) with (N32 * N32); exact MN).
    rewrite !Z.shiftr_div_pow2 by lia. fold N32. fold P.
    assert (QB : 0 <= fd_magic fd * n / N32 < N32) by (split; [apply Z.div_pos; lia | apply Z.div_lt_upper_bound; lia]).
    rewrite (u32_id (fd_magic fd * n / N32)) by (fold N32; exact QB).
    assert (F : forall Dn, 0 < Dn -> e * N32 <= Dn -> 0 <= e -> e * n < Dn).
    { intros Dn D1 D2 D3. destruct (Z.eq_dec e 0) as [->|E0]; [lia|]. assert (e * n < e * N32) by (apply Z.mul_lt_mono_pos_l; lia). lia. }
    destruct (fd_add fd); cbv zeta in E; destruct E as (E & E1 & E2).
    + set (q := fd_magic fd * n / N32) in *.
      assert (QN : q <= n). { unfold q. apply Z.div_le_upper_bound; [lia|]. apply Z.mul_le_mono_nonneg_r; lia. }
      rewrite (u32_id (n - q)) by (fold N32; lia). change (2 ^ 1) with 2.
      assert (T : (n - q) / 2 + q = (n + q) / 2). { replace (n + q) with (n - q + q * 2) by ring. rewrite Z.div_add by lia. reflexivity. }
      rewrite T. rewrite u32_id by (fold N32; split; [apply Z.div_pos; lia | apply Z.div_lt_upper_bound; lia]).
      rewrite Z.div_div by lia.
      assert (NQ : n + q = (N32 + fd_magic fd) * n / N32).
      { replace ((N32 + fd_magic fd) * n) with (fd_magic fd * n + n * N32) by ring. rewrite Z.div_add by lia. unfold q. lia. }
      rewrite NQ, Z.div_div by lia. apply (magic_div _ d _ e); try lia. apply F; lia.
    + rewrite Z.div_div by lia. apply (magic_div _ d _ e); try lia. apply F; lia.
Qed.
