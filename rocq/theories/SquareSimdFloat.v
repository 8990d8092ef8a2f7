(** Rounding depends on the number alone, not on how it is written; conversions of 64 bit lanes
    and the fused multiplication. *)
From Coq Require Import ZArith List Lia Bool.
From Coq Require Import SpecFloat.
From Verif Require Import Common PlaneMem Pixel Soft SoftLemmas SoftBounds SoftErr SoftLe SoftNum Generic GenericOps GenericFloat Simd GenericSimd GenericSimdFloat SquareSimd.
Import Soft ListNotations.
Open Scope Z_scope.

(** ** Shifts *)

Lemma iter_add : forall (A : Type) (f : A -> A) p q x, SpecFloat.iter_pos f (p + q) x = SpecFloat.iter_pos f q (SpecFloat.iter_pos f p x).
Proof.
  assert (IA : forall (A : Type) (f : A -> A) n m x, Nat.iter (n + m) f x = Nat.iter n f (Nat.iter m f x)).
  { intros A f. induction n as [|n IH]; intros m x; [reflexivity|]. change (f (Nat.iter (n + m) f x) = f (Nat.iter n f (Nat.iter m f x))). rewrite IH. reflexivity. }
  assert (N : forall (A : Type) (f : A -> A) p x, SpecFloat.iter_pos f p x = Nat.iter (Pos.to_nat p) f x).
  { intros A f. induction p as [p IH|p IH|]; intros x; cbn [SpecFloat.iter_pos].
    - rewrite !IH. rewrite Pos2Nat.inj_xI. replace (S (2 * Pos.to_nat p))%nat with (Pos.to_nat p + (Pos.to_nat p + 1))%nat by lia. rewrite !IA. cbn [Nat.iter]. reflexivity.
    - rewrite !IH. rewrite Pos2Nat.inj_xO. replace (2 * Pos.to_nat p)%nat with (Pos.to_nat p + Pos.to_nat p)%nat by lia. rewrite IA. reflexivity.
    - reflexivity. }
  intros A f p q x. rewrite !N, Pos2Nat.inj_add, Nat.add_comm, IA. reflexivity.
Qed.

Lemma shr1_double : forall m, 0 < m -> shr_1 (shr_record_of_loc (2 * m) loc_Exact) = shr_record_of_loc m loc_Exact.
Proof. intros m M. destruct m as [|p|p]; [lia | reflexivity | lia]. Qed.

Lemma shr_pow : forall j m, 0 < m -> SpecFloat.iter_pos shr_1 j (shr_record_of_loc (m * 2 ^ Z.pos j) loc_Exact) = shr_record_of_loc m loc_Exact.
Proof.
  induction j as [|j IH] using Pos.peano_ind; intros m M.
  - cbn [SpecFloat.iter_pos]. rewrite (Z.mul_comm m). apply shr1_double. exact M.
  - rewrite <- Pos.add_1_r. rewrite iter_add. rewrite Pos.add_1_r, Pos2Z.inj_succ, Z.pow_succ_r by lia.
    replace (m * (2 * 2 ^ Z.pos j)) with (2 * m * 2 ^ Z.pos j) by ring. rewrite IH by lia. cbn [SpecFloat.iter_pos]. apply shr1_double. exact M.
Qed.

Section Round.
Variables prec emax : Z.

Lemma aux_shift : forall s m e j, 0 <= j -> e + j <= fexp prec emax (Zdigits2 (Z.pos m) + (e + j)) ->
  binary_round_aux prec emax s (Z.pos m * 2 ^ j) e loc_Exact = binary_round_aux prec emax s (Z.pos m) (e + j) loc_Exact.
Proof.
  intros s m e j J T. unfold binary_round_aux.
  replace (shr_fexp prec emax (Z.pos m * 2 ^ j) e loc_Exact) with (shr_fexp prec emax (Z.pos m) (e + j) loc_Exact); [reflexivity|].
  unfold shr_fexp. rewrite Zdigits2_mul by exact J. replace (Zdigits2 (Z.pos m) + j + e) with (Zdigits2 (Z.pos m) + (e + j)) by lia.
  set (t := fexp prec emax (Zdigits2 (Z.pos m) + (e + j))) in *.
  destruct j as [|j|j]; [|clear J|lia].
  - rewrite Z.pow_0_r, Z.mul_1_r, Z.add_0_r. reflexivity.
  - assert (t - e = Z.pos j + (t - (e + Z.pos j))) as -> by lia. destruct (t - (e + Z.pos j)) as [|q|q] eqn:Q; [| |lia].
    + rewrite Z.add_0_r. cbn [shr]. rewrite shr_pow by lia. reflexivity.
    + change (Z.pos j + Z.pos q) with (Z.pos (j + q)). cbn [shr]. rewrite iter_add, shr_pow by lia. f_equal. rewrite Pos2Z.inj_add. lia.
Qed.

Lemma round_shift : forall s m m' e j, 0 <= j -> Z.pos m' = Z.pos m * 2 ^ j -> binary_round prec emax s m' e = binary_round prec emax s m (e + j).
Proof.
  intros s m m' e j J M. unfold binary_round.
  change (Z.pos (digits2_pos m')) with (Zdigits2 (Z.pos m')). change (Z.pos (digits2_pos m)) with (Zdigits2 (Z.pos m)).
  rewrite M, Zdigits2_mul by exact J. replace (Zdigits2 (Z.pos m) + j + e) with (Zdigits2 (Z.pos m) + (e + j)) by lia.
  set (t := fexp prec emax (Zdigits2 (Z.pos m) + (e + j))).
  pose proof (shl_align_spec m' e t) as (A1 & A2). pose proof (shl_align_spec m (e + j) t) as (B1 & B2).
  destruct (shl_align m' e t) as (mz & ez). destruct (shl_align m (e + j) t) as (my & ey). cbn [fst snd] in *. subst ez ey.
  assert (C : t <= e \/ e < t) by lia. destruct C as [C|C].
  - rewrite Z.min_r in A2, B2 by lia. rewrite Z.min_r, Z.min_r by lia. f_equal. rewrite A2, B2, M, <- Z.mul_assoc, <- Z.pow_add_r by lia. f_equal. f_equal. lia.
  - rewrite Z.min_l in A2 by lia. rewrite Z.min_l by lia. rewrite Z.sub_diag, Z.pow_0_r, Z.mul_1_r in A2.
    assert (JD : 0 <= e + j - Z.min (e + j) t) by lia.
    assert (MM : Z.pos mz = Z.pos my * 2 ^ (Z.min (e + j) t - e)).
    { rewrite A2, B2, M, <- Z.mul_assoc, <- Z.pow_add_r by lia. f_equal. f_equal. lia. }
    rewrite MM. replace (Z.min (e + j) t) with (e + (Z.min (e + j) t - e)) at 2 by lia. apply aux_shift; [lia|].
    rewrite B2, Zdigits2_mul by exact JD. replace (Zdigits2 (Z.pos m) + (e + j - Z.min (e + j) t) + (e + (Z.min (e + j) t - e))) with (Zdigits2 (Z.pos m) + (e + j)) by lia.
    fold t. lia.
Qed.

(** The same number, written twice. *)
Theorem normalize_same : forall a ea b eb z, a * 2 ^ (ea - Z.min ea eb) = b * 2 ^ (eb - Z.min ea eb) ->
  binary_normalize prec emax a ea z = binary_normalize prec emax b eb z.
Proof.
  assert (W : forall a e j z, 0 <= j -> binary_normalize prec emax (a * 2 ^ j) e z = binary_normalize prec emax a (e + j) z).
  { intros a e j z J. assert (P : 0 < 2 ^ j) by (apply Z.pow_pos_nonneg; lia). destruct a as [|p|p].
    - reflexivity.
    - destruct (Z.pos p * 2 ^ j) as [|q|q] eqn:Q; [lia | | lia]. cbn [binary_normalize]. apply round_shift; [exact J | lia].
    - destruct (Z.neg p * 2 ^ j) as [|q|q] eqn:Q; [lia | lia |]. cbn [binary_normalize]. apply round_shift; [exact J | lia]. }
  intros a ea b eb z H. set (m := Z.min ea eb) in *.
  replace ea with (m + (ea - m)) at 1 by lia. rewrite <- W by lia. rewrite H. rewrite W by lia. f_equal. lia.
Qed.
End Round.

(** ** 64 bit lanes *)

Lemma s64_wrap : forall v, - 2 ^ 63 <= v < 2 ^ 63 -> s64 (wrapu64 v) = v.
Proof.
  intros v V. unfold s64, wrapu64. destruct (Z_lt_le_dec v 0).
  - replace (v mod 18446744073709551616) with (v + 18446744073709551616); [destruct (Z.ltb_spec (v + 18446744073709551616) 9223372036854775808); lia|].
    symmetry. rewrite <- (Z.mod_add v 1 18446744073709551616) by lia. apply Z.mod_small. lia.
  - rewrite Z.mod_small by lia. destruct (Z.ltb_spec v 9223372036854775808); lia.
Qed.

Lemma i64ToPd_exact : forall x, - 2 ^ 51 <= x < 2 ^ 51 -> i64ToPd (wrapu64 x) = of64 x 0.
Proof.
  intros x X. unfold i64ToPd. cbv zeta.
  assert (U : wrapu64 (wrapu64 x + 2251799813685248) = x + 2251799813685248).
  { unfold wrapu64. rewrite Zplus_mod_idemp_l. apply Z.mod_small. lia. }
  rewrite U. set (u := x + 2251799813685248) in *. assert (UB : 0 <= u < 4503599627370496) by (unfold u; lia).
  assert (L : Z.lor u 4841369599423283200 = u + 4841369599423283200).
  { replace 4841369599423283200 with (1075 * 2 ^ 52) by reflexivity. rewrite <- Z.shiftl_mul_pow2 by lia.
    rewrite Z.add_nocarry_lxor; [rewrite Z.lxor_lor; [reflexivity|]|]; (apply Z.bits_inj'; intros n N; rewrite Z.land_spec, Z.bits_0, Z.shiftl_spec by exact N;
    destruct (Z_lt_le_dec n 52); [rewrite (Z.testbit_neg_r 1075) by lia; apply andb_false_r | rewrite Z.bits_above_log2; [reflexivity | lia |]];
    destruct (Z.eq_dec u 0) as [->|U0]; [cbn; lia|]; assert (Z.log2 u < 52); [apply Z.log2_lt_pow2; lia | lia]). }
  rewrite L. replace (u + 4841369599423283200) with (u + 1075 * 4503599627370496) by lia.
  unfold pdOfBits. cbv zeta. rewrite Z.div_add, Z.mod_add by lia. rewrite (Z.div_small u) by exact UB. rewrite (Z.mod_small u) by exact UB.
  change ((0 + 1075) mod 2048) with 1075. change (1075 =? 0) with false. change (1075 =? 2047) with false. cbv iota.
  replace (9223372036854775808 <=? u + 1075 * 4503599627370496) with false by (symmetry; apply Z.leb_gt; lia).
  change (1075 - 1075) with 0. unfold sub64. cbn [SFsub]. change (Z.min 0 0) with 0.
  assert (P : Z.pos (Z.to_pos (4503599627370496 + u)) = 4503599627370496 + u) by (apply Z2Pos.id; lia).
  set (q := Z.to_pos (4503599627370496 + u)) in *.
  unfold shl_align. rewrite Z.sub_diag. cbn [fst cond_Zopp]. rewrite P. unfold of64, cond_Zopp. f_equal. unfold u. lia.
Qed.

Lemma to32_of64 : forall x, Z.abs x < 2 ^ 53 -> to32 (of64 x 0) = of32 x 0.
Proof.
  assert (G : forall s p, Z.pos p < 2 ^ 53 -> to32 (binary_round 53 1024 s p 0) = binary_round 24 128 s p 0).
  { intros s p X. assert (D : 1 <= Zdigits2 (Z.pos p) <= 53) by (split; [cbn [Zdigits2]; lia | apply Zdigits2_le; lia]).
    rewrite (SoftNum.round_exact 53 1024 ltac:(lia)) by (unfold SpecFloat.emin; lia).
    cbn [to32]. set (d := Zdigits2 (Z.pos p)) in *.
    assert (P : 0 < 2 ^ (53 - d)) by (apply Z.pow_pos_nonneg; lia).
    rewrite (round_shift 24 128 s p _ _ (53 - d)); [f_equal; lia | lia | apply Z2Pos.id; nia]. }
  intros x X. unfold of64, of32. destruct x as [|p|p]; [reflexivity| |]; cbn [binary_normalize]; apply G; lia.
Qed.

(** Both conversions of a 64 bit lane round the number once. *)
Theorem cvt64_spec : forall nb x, - 2 ^ 51 <= x < 2 ^ 51 -> cvt64 nb (wrapu64 x) = of32 x 0.
Proof.
  intros nb x X. unfold cvt64. assert (to32 (i64ToPd (wrapu64 x)) = of32 x 0) as E by (rewrite i64ToPd_exact by exact X; apply to32_of64; lia).
  assert (of32 (s64 (wrapu64 x)) 0 = of32 x 0) as E' by (rewrite s64_wrap by lia; reflexivity).
  destruct nb as [|[|[|nb]]]; assumption.
Qed.

(** ** The fused multiplication *)

Lemma fma_zero : forall x y z s, z = S754_zero s -> lrint (fma32 x y z) = lrint (add32 (mul32 x y) z) /\ lrint (SFabs (fma32 x y z)) = lrint (SFabs (add32 (mul32 x y) z)).
Proof.
  intros x y z s ->. assert (G : forall p, lrint p = lrint (add32 p (S754_zero s)) /\ lrint (SFabs p) = lrint (SFabs (add32 p (S754_zero s)))).
  { intros [t|t| |t m e]; cbn [add32 SFadd]; try (split; reflexivity). destruct t, s; split; reflexivity. }
  unfold fma32. destruct x, y; try (split; reflexivity). apply G.
Qed.

(** The product is representable. *)
Definition exactMul (x y : fl) : Prop :=
  match x, y with
  | S754_finite sx mx ex, S754_finite sy my ey =>
      exists m e, mul32 x y = S754_finite (xorb sx sy) m e /\
        Z.pos m * 2 ^ (e - Z.min e (ex + ey)) = Z.pos (mx * my) * 2 ^ (ex + ey - Z.min e (ex + ey))
  | _, _ => True
  end.

Theorem fma_exact : forall x y z, exactMul x y -> fma32 x y z = add32 (mul32 x y) z.
Proof.
  intros x y z E. unfold fma32. destruct x as [sx|sx| |sx mx ex]; try reflexivity. destruct y as [sy|sy| |sy my ey]; try reflexivity.
  destruct E as (m & e & E & V). rewrite E. destruct z as [sz|sz| |sz mz ez]; try reflexivity.
  cbn [add32 SFadd]. unfold add32. cbn [SFadd]. apply normalize_same.
  set (q := ex + ey) in *.
  pose proof (shl_align_spec (mx * my) q (Z.min q ez)) as (_ & A1). pose proof (shl_align_spec mz ez (Z.min q ez)) as (_ & A2).
  pose proof (shl_align_spec m e (Z.min e ez)) as (_ & B1). pose proof (shl_align_spec mz ez (Z.min e ez)) as (_ & B2).
  replace (Z.min q (Z.min q ez)) with (Z.min q ez) in A1 by lia. replace (Z.min ez (Z.min q ez)) with (Z.min q ez) in A2 by lia.
  replace (Z.min e (Z.min e ez)) with (Z.min e ez) in B1 by lia. replace (Z.min ez (Z.min e ez)) with (Z.min e ez) in B2 by lia.
  rewrite A1, A2, B1, B2.
  set (e0 := Z.min (Z.min q ez) (Z.min e ez)). assert (E0 : e0 = Z.min (Z.min q ez) (Z.min e ez)) by reflexivity. clearbody e0.
  assert (V' : Z.pos m * 2 ^ (e - e0) = Z.pos (mx * my) * 2 ^ (q - e0)).
  { replace (e - e0) with ((e - Z.min e q) + (Z.min e q - e0)) by lia. replace (q - e0) with ((q - Z.min e q) + (Z.min e q - e0)) by lia.
    rewrite !Z.pow_add_r by lia. rewrite !Z.mul_assoc, V. reflexivity. }
  assert (SH : forall s a p u, e0 <= u <= p -> cond_Zopp s (a * 2 ^ (p - u)) * 2 ^ (u - e0) = cond_Zopp s (a * 2 ^ (p - e0))).
  { intros s a p u U. replace (p - e0) with ((p - u) + (u - e0)) by lia. rewrite Z.pow_add_r by lia. destruct s; cbn [cond_Zopp]; ring. }
  rewrite !Z.mul_add_distr_r. rewrite !SH by lia. rewrite V'. reflexivity.
Qed.

(** Halving, quartering, ..: a divisor that is a power of two times a sum of at most 24 bits. *)
Lemma exactMul_pow2 : forall s p j, Z.abs s < 2 ^ 24 -> -60 <= j <= 60 -> p = of32 1 j \/ p = SFopp (of32 1 j) -> exactMul (of32 s 0) p.
Proof.
  intros s p j S J P.
  assert (O : of32 1 j = S754_finite false 8388608 (j - 23)).
  { unfold of32. cbn [binary_normalize]. rewrite (SoftNum.round_exact 24 128 ltac:(lia)) by (unfold SpecFloat.emin; cbn [Zdigits2 digits2_pos]; lia). cbn [Zdigits2 digits2_pos].
    f_equal. lia. }
  assert (PP : exists sp, p = S754_finite sp 8388608 (j - 23)) by (destruct P as [-> | ->]; rewrite O; cbn [SFopp]; eauto). destruct PP as (sp & ->).
  rewrite of32_exact by exact S. destruct s as [|q|q]; [exact I| |]; cbn [floatZ]; destruct (floatOf_spec q ltac:(lia)) as (D & M & R); unfold floatOf; set (mx := fst _) in *; set (d := Z.pos (digits2_pos q)) in *.
  all: cbn [exactMul]; unfold mul32; cbn [SFmul]; exists mx, (d - 24 + j); split;
    [ replace (Z.pos (mx * 8388608)) with (Z.pos mx * 2 ^ 23) by (rewrite Pos2Z.inj_mul; reflexivity);
      replace (d - 24 + (j - 23)) with (d - 24 + j - 23) by lia; apply GenericFloat.round_aux_exact; lia
    | rewrite Pos2Z.inj_mul; change (Z.pos 8388608) with (2 ^ 23); rewrite <- Z.mul_assoc, <- Z.pow_add_r by lia; f_equal; f_equal; lia ].
Qed.
