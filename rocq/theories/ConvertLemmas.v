(** Conversion of audio samples: the doubles computed are the exact ones. *)
From Coq Require Import ZArith List Bool Lia.
From Coq Require Import SpecFloat.
From Verif Require Import Common AudioSpec Audio AudioLemmas Soft SoftLemmas SoftBounds SoftRound SoftNum SoftErr SoftAdd SoftVal ResampleSpec ResampleLemmas ConvertSpec Convert.
Import ListNotations.
Open Scope Z_scope.

(** *** Rounding *)
Lemma rnd_scale : forall n d c, 0 < d -> 0 < c -> rnd (n * c) (d * c) = rnd n d.
Proof.
  intros n d c D C. unfold rnd. rewrite Z.sgn_mul, (Z.sgn_pos c C), Z.mul_1_r, Z.abs_mul, (Z.abs_eq c) by lia. f_equal.
  replace (2 * (Z.abs n * c) + d * c) with ((2 * Z.abs n + d) * c) by ring. replace (2 * (d * c)) with (2 * d * c) by ring. apply Z.div_mul_cancel_r; lia.
Qed.
Lemma rnd_cross : forall n d n' d', 0 < d -> 0 < d' -> n * d' = n' * d -> rnd n d = rnd n' d'.
Proof. intros n d n' d' D D' E. rewrite <- (rnd_scale n d d' D D'), <- (rnd_scale n' d' d D' D). f_equal; [exact E|ring]. Qed.
Lemma rnd_int : forall a d, 0 < d -> rnd (a * d) d = a.
Proof.
  intros a d D. replace d with (1 * d) at 2 by ring. rewrite rnd_scale by lia. unfold rnd. replace ((2 * Z.abs a + 1) / (2 * 1)) with (Z.abs a). { rewrite Z.mul_comm. apply Z.abs_sgn. }
  apply Z.div_unique with 1; lia.
Qed.
Lemma rnd_near : forall n d, 0 < d -> 2 * Z.abs (rnd n d * d - n) <= d.
Proof.
  intros n d D. unfold rnd. pose proof (Z.div_mod (2 * Z.abs n + d) (2 * d) ltac:(lia)) as DM. pose proof (Z.mod_pos_bound (2 * Z.abs n + d) (2 * d) ltac:(lia)) as MB.
  set (q := (2 * Z.abs n + d) / (2 * d)) in *. set (r := (2 * Z.abs n + d) mod (2 * d)) in *. clearbody q r. assert (E : 2 * (q * d) = 2 * Z.abs n + d - r) by (replace (2 * (q * d)) with (2 * d * q) by ring; lia).
  destruct n as [|p|p]; cbn [Z.sgn].
  - lia.
  - replace (1 * q * d) with (q * d) by ring. cbn [Z.abs] in *. lia.
  - replace (-1 * q * d) with (- (q * d)) by ring. change (Z.neg p) with (- Z.pos p) in *. cbn [Z.abs Z.opp] in *. lia.
Qed.
Lemma sc_pos : 0 < 2 ^ sc.
Proof. apply pow_pos. unfold sc. lia. Qed.

Lemma round64_val : forall x, norm x -> norm (round64 x) /\ V (round64 x) = rnd (V x) (2 ^ sc) * 2 ^ sc.
Proof.
  intros [s|s| |s m e] N; cbn [norm] in N; try contradiction.
  - split; [exact I|]. cbn [round64 V]. reflexivity.
  - destruct N as (D & E). assert (SC : sc = 1074) by reflexivity. pose proof sc_pos as SP. cbn [round64]. destruct (Z.leb_spec 0 e) as [E0|E0].
    + split; [split; [exact D|lia]|]. cbn [V]. rewrite Z.pow_add_r by lia. rewrite Z.mul_assoc, rnd_int by exact SP. reflexivity.
    + pose proof (digits53 m D) as B. assert (MA : mag_away m e = (2 * Z.pos m + 2 ^ (- e)) / (2 * 2 ^ (- e))) by (unfold mag_away; destruct (Z.leb_spec 0 e); [lia|reflexivity]).
      assert (DP : 2 <= 2 ^ (- e)) by (change 2 with (2 ^ 1) at 1; apply Z.pow_le_mono_r; lia).
      assert (MB : 0 <= mag_away m e < 2 ^ 53). { rewrite MA. split; [apply Z.div_pos; lia|]. apply Z.div_lt_upper_bound; [lia|]. assert (2 * 2 ^ 53 <= 2 ^ (- e) * 2 ^ 53) by (apply Z.mul_le_mono_nonneg_r; lia). lia. }
      assert (RV : rnd (V (S754_finite s m e)) (2 ^ sc) = signed s (mag_away m e)).
      { cbn [V]. rewrite (rnd_cross _ _ (signed s (Z.pos m)) (2 ^ (- e))); [|exact SP|lia|]. 2:{ rewrite <- Z.mul_assoc, <- Z.pow_add_r by lia. do 2 f_equal. lia. }
        unfold rnd. rewrite MA. destruct s; cbn [signed]. - rewrite Z.abs_opp. change (Z.abs (Z.pos m)) with (Z.pos m). change (Z.sgn (- Z.pos m)) with (-1). ring. - change (Z.abs (Z.pos m)) with (Z.pos m). change (Z.sgn (Z.pos m)) with 1. ring. }
      rewrite RV. assert (AB : Z.abs (signed s (mag_away m e)) < 2 ^ 53) by (destruct s; cbn [signed]; lia).
      destruct (of64_val (signed s (mag_away m e)) 0 AB ltac:(lia)) as (N1 & V1). change (0 + sc) with sc in V1. destruct (mag_away m e) as [|p|p] eqn:Q.
      * split; [exact I|]. cbn [V]. destruct s; reflexivity.
      * split; [exact N1|exact V1].
      * split; [exact N1|exact V1].
Qed.
Lemma clamp_val : forall x lo hi, norm x -> norm lo -> norm hi -> V lo <= V hi -> norm (clamp64 x lo hi) /\ V (clamp64 x lo hi) = Z.max (V lo) (Z.min (V hi) (V x)).
Proof.
  intros x lo hi Nx Nl Nh L. unfold clamp64. rewrite !ltb_val by assumption. destruct (Z.ltb_spec (V x) (V lo)); [split; [assumption|lia]|]. destruct (Z.ltb_spec (V hi) (V x)); split; try assumption; lia.
Qed.
Lemma within_V : forall x a b, norm x -> 0 <= a + sc -> 0 <= b + sc -> 2 ^ (a + sc) <= Z.abs (V x) <= 2 ^ (b + sc) -> within a (b + 1) x.
Proof.
  intros [s|s| |s m e] a b N A B H; try exact I. destruct N as (D & E). pose proof (digits53 m D) as MB. cbn [V within] in *. assert (SC : sc = 1074) by reflexivity.
  assert (AV : Z.abs (signed s (Z.pos m) * 2 ^ (e + sc)) = Z.pos m * 2 ^ (e + sc)) by (rewrite Z.abs_mul, (Z.abs_eq (2 ^ (e + sc))) by (apply Z.lt_le_incl, pow_pos; lia); destruct s; reflexivity). rewrite AV in H. pose proof (pow_pos (e + sc) ltac:(lia)).
  assert (L1 : 2 ^ (a + sc) < 2 ^ (e + sc + 53)). { rewrite (Z.pow_add_r 2 (e + sc) 53) by lia. apply Z.le_lt_trans with (Z.pos m * 2 ^ (e + sc)); [lia|]. rewrite Z.mul_comm. apply Z.mul_lt_mono_pos_l; lia. }
  assert (L2 : 2 ^ (e + sc + 52) <= 2 ^ (b + sc)). { rewrite (Z.pow_add_r 2 (e + sc) 52) by lia. apply Z.le_trans with (Z.pos m * 2 ^ (e + sc)); [|lia]. rewrite Z.mul_comm. apply Z.mul_le_mono_nonneg_r; lia. }
  apply Z.pow_lt_mono_r_iff in L1; [|lia|lia]. apply Z.pow_le_mono_r_iff in L2; [|lia|lia]. lia.
Qed.
Lemma within_int : forall x k b, norm x -> V x = k * 2 ^ sc -> Z.abs k <= 2 ^ b -> 0 <= b -> within 0 (b + 1) x.
Proof.
  intros x k b N E K B. destruct (Z.eq_dec k 0) as [->|K0].
  - destruct x as [s|s| |s m e]; try exact I. exfalso. destruct N as (D & R). cbn [V] in E. pose proof (V_sign m e ltac:(lia)). destruct s; cbn [signed] in E; rewrite ?Z.mul_opp_l in E; lia.
  - assert (SC : sc = 1074) by reflexivity. apply within_V; [exact N|lia|lia|]. pose proof sc_pos. rewrite E, Z.abs_mul, (Z.abs_eq (2 ^ sc)) by lia. split.
    + change (0 + sc) with sc. rewrite <- (Z.mul_1_l (2 ^ sc)) at 1. apply Z.mul_le_mono_nonneg_r; lia.
    + rewrite Z.pow_add_r by lia. apply Z.mul_le_mono_nonneg_r; lia.
Qed.
Lemma castTo_val : forall bytes x k, norm x -> V x = k * 2 ^ sc -> - 2 ^ (8 * bytes - 1) <= k < 2 ^ (8 * bytes - 1) -> castTo bytes x = Ok k.
Proof.
  intros bytes [s|s| |s m e] k N E R; cbn [norm] in N; try contradiction; pose proof sc_pos as SP.
  - cbn [V] in E. assert (k = 0) by (destruct (Z.eq_dec k 0); [assumption|exfalso; assert (k * 2 ^ sc <> 0) by (apply Z.neq_mul_0; lia); lia]). subst. reflexivity.
  - destruct N as (D & EE). assert (SC : sc = 1074) by reflexivity. cbn [V] in E. cbn [castTo].
    assert (T : signed s (mag_trunc m e) = k).
    { unfold mag_trunc. destruct (Z.leb_spec 0 e) as [E0|E0].
      - rewrite Z.pow_add_r in E by lia. rewrite Z.mul_assoc in E. apply Z.mul_reg_r in E; [|lia]. destruct s; cbn [signed] in *; lia.
      - assert (F : signed s (Z.pos m) = k * 2 ^ (- e)). { apply Z.mul_reg_r with (2 ^ (e + sc)); [pose proof (pow_pos (e + sc)); lia|]. rewrite E, <- Z.mul_assoc, <- Z.pow_add_r by lia. do 2 f_equal. lia. }
        assert (P : Z.pos m = signed s k * 2 ^ (- e)) by (destruct s; cbn [signed] in *; lia). rewrite P, Z.div_mul by (pose proof (pow_pos (- e)); lia). destruct s; cbn [signed]; lia. }
    rewrite T. cbv zeta. destruct (Z.leb_spec (- 2 ^ (8 * bytes - 1)) k); [|lia]. destruct (Z.ltb_spec k (2 ^ (8 * bytes - 1))); [|lia]. reflexivity.
Qed.
Lemma opp_val : forall x, norm x -> norm (SFopp x) /\ V (SFopp x) = - V x.
Proof. intros [s|s| |s m e] N; try contradiction; cbn [SFopp norm V] in *; (split; [exact N|]); [reflexivity|]. destruct s; cbn [signed negb]; ring. Qed.
Lemma pad_bound : forall f, fmtOk f -> 16 <= f_bits f <= 32 /\ f_bits f <= container f <= 32 /\ 16 <= container f /\ container f = 8 * f_bytes f.
Proof. intros f (B & Y & _). unfold container. destruct (Z.eqb_spec (f_bits f) 16); lia. Qed.
Theorem quantize_val : forall g x, fmtOk g -> f_float g = false -> norm x ->
  quantize (f_bytes g) (SFopp (of64 (2 ^ (f_bits g - 1)) 0)) (of64 (2 ^ (f_bits g - 1) - 1) 0) (formatOutputShift g) x = Ok (storedStep g (rnd (V x) (2 ^ sc))).
Proof.
  intros g x G GF N. destruct (pad_bound g G) as (B & C & C16 & CB). pose proof sc_pos as SP. assert (SC : sc = 1074) by reflexivity. set (b := f_bits g) in *.
  assert (PB : 1 <= 2 ^ (b - 1) <= 2 ^ 31) by (split; [pose proof (pow_pos (b - 1)); lia|apply Z.pow_le_mono_r; lia]). change (2 ^ 31) with 2147483648 in PB.
  destruct (of64_val (2 ^ (b - 1)) 0 ltac:(change (2 ^ 53) with 9007199254740992; lia) ltac:(lia)) as (N1 & V1). destruct (of64_val (2 ^ (b - 1) - 1) 0 ltac:(change (2 ^ 53) with 9007199254740992; lia) ltac:(lia)) as (N2 & V2). change (0 + sc) with sc in V1, V2.
  destruct (opp_val _ N1) as (N3 & V3). rewrite V1 in V3. destruct (round64_val x N) as (N4 & V4). set (k := rnd (V x) (2 ^ sc)) in *.
  unfold quantize. set (lo := SFopp (of64 (2 ^ (b - 1)) 0)) in *. set (hi := of64 (2 ^ (b - 1) - 1) 0) in *. set (r := round64 x) in *. clearbody lo hi r.
  destruct (clamp_val r lo hi N4 N3 N2) as (N5 & V5). { rewrite V2, V3, <- Z.mul_opp_l. apply Z.mul_le_mono_nonneg_r; lia. }
  assert (V6 : V (clamp64 r lo hi) = limit b k * 2 ^ sc). { rewrite V5, V2, V3, V4. unfold limit. rewrite <- Z.mul_opp_l, Z.mul_min_distr_nonneg_r, Z.mul_max_distr_nonneg_r by lia. reflexivity. }
  assert (LB : - 2 ^ (b - 1) <= limit b k <= 2 ^ (b - 1) - 1) by (unfold limit; lia).
  set (l := clamp64 r lo hi) in *. assert (W : within 0 (31 + 1) l) by (apply within_int with (limit b k); [exact N5|exact V6|change (2 ^ 31) with 2147483648; lia|lia]).
  unfold formatOutputShift, containerBits. rewrite GF. replace (f_bytes g * 8) with (container g) by lia. fold b.
  destruct (mul_pow2 l (container g - b) 0 (31 + 1) N5 W ltac:(lia) ltac:(lia) ltac:(lia)) as (N7 & _ & V7). specialize (V7 0 ltac:(lia) ltac:(lia)). rewrite Z.add_0_l, Z.pow_0_r, Z.mul_1_r, V6 in V7.
  rewrite (castTo_val (f_bytes g) _ (limit b k * 2 ^ (container g - b)) N7).
  - cbn [obind]. unfold storedStep. fold b. rewrite eqb_val by assumption. rewrite V6, V4. do 3 f_equal. destruct (Z.eqb_spec (limit b k) k) as [->|NE]; [apply Z.eqb_refl|]. apply Z.eqb_neq. intros Q. apply NE. apply Z.mul_reg_r with (2 ^ sc); [lia|exact Q].
  - rewrite V7. ring.
  - rewrite <- CB. pose proof (pow_pos (container g - b) ltac:(lia)) as PP. replace (container g - 1) with (b - 1 + (container g - b)) by lia. rewrite Z.pow_add_r by lia. split.
    + rewrite <- Z.mul_opp_l. apply Z.mul_le_mono_nonneg_r; lia.
    + apply Z.mul_lt_mono_pos_r; lia.
Qed.

(** *** Reading and scaling *)
Lemma pow_mul : forall a b, -400 <= a <= 400 -> -400 <= b <= 400 -> mul64 (of64 1 a) (of64 1 b) = of64 1 (a + b).
Proof.
  intros a b A B. rewrite !one_pow by lia. unfold mul64. cbn [SFmul xorb].
  assert (MD : Z.pos (2 ^ 52 * 2 ^ 52) = 2 ^ 52 * 2 ^ 52) by reflexivity.
  assert (DG : Zdigits2 (Z.pos (2 ^ 52 * 2 ^ 52)) = 105) by reflexivity.
  assert (SB : shiftBy 53 1024 (Z.pos (2 ^ 52 * 2 ^ 52)) (a - 52 + (b - 52)) = 52) by (unfold shiftBy; rewrite DG; unfold SpecFloat.emin; lia).
  rewrite (round_aux_exact 53 1024 ltac:(lia)); rewrite ?SB; [|lia|exists (2 ^ 52); exact MD|lia].
  rewrite MD, Z.div_mul by (apply Z.pow_nonzero; lia). f_equal. lia.
Qed.
Lemma valid32 : forall s m e, valid_binary 24 128 (S754_finite s m e) = true -> 1 <= Zdigits2 (Z.pos m) <= 24 /\ -149 <= e <= 104.
Proof.
  intros s m e H. cbn [valid_binary] in H. unfold bounded, canonical_mantissa in H. apply andb_prop in H. destruct H as (H1 & H2). apply Zeq_bool_eq in H1. apply Z.leb_le in H2. unfold fexp, SpecFloat.emin in H1. change (Zdigits2 (Z.pos m)) with (Z.pos (digits2_pos m)). lia.
Qed.
Lemma to64_val : forall x, valid_binary 24 128 x = true -> isFin x = true -> norm (to64 x) /\ within (-149) 128 (to64 x) /\ V (to64 x) = V x.
Proof.
  intros [s|s| |s m e] H F; try discriminate F.
  - split; [exact I|]. split; [exact I|reflexivity].
  - destruct (valid32 s m e H) as (D & E). cbn [to64]. rewrite (round_exact 53 1024 ltac:(lia)); [|lia|unfold SpecFloat.emin; lia|lia]. set (d := Zdigits2 (Z.pos m)) in *. assert (SC : sc = 1074) by reflexivity.
    assert (PP : 0 < Z.pos m * 2 ^ (53 - d)) by (apply Z.mul_pos_pos; [lia|apply pow_pos; lia]). cbn [norm within V]. rewrite Z2Pos.id by exact PP. split; [|split].
    + split; [|lia]. rewrite Zdigits2_mul by lia. fold d. lia.
    + lia.
    + replace (e + sc) with ((53 - d) + (d + e - 53 + sc)) by lia. rewrite (Z.pow_add_r 2 (53 - d)) by lia. destruct s; cbn [signed]; ring.
Qed.
(** What [mul] is, and the product. *)
Definition scaleExp (f g : afmt) : Z := (if f_float f then 0 else - (container f - 1)) + (if f_float g then 0 else f_bits g - 1).
Lemma mul_is : forall f g, fmtOk f -> fmtOk g -> mul64 (formatToNorm f) (normToFormat g) = of64 1 (scaleExp f g) /\ -31 <= scaleExp f g <= 31.
Proof.
  intros f g F G. destruct (pad_bound f F) as (B1 & B2 & B3 & B4). destruct (pad_bound g G) as (C1 & C2 & C3 & C4). unfold formatToNorm, normToFormat, scaleExp, containerBits. replace (f_bytes f * 8) with (container f) by lia.
  destruct (f_float f), (f_float g); (split; [rewrite pow_mul by lia; reflexivity|lia]).
Qed.
Definition gridExp (g : afmt) : Z := if f_float g then 0 else f_bits g - 1.
Lemma denOf_pos : forall f x, fmtOk f -> 0 < denOf f x.
Proof. intros f x F. destruct (pad_bound f F) as (_ & B2 & B3 & _). destruct x as [v|[| | |s m e]]; cbn [denOf]; try lia; apply pow_pos; lia. Qed.
Theorem scaled_val : forall f g x, fmtOk f -> fmtOk g -> sampleOk f x -> finite x ->
  let X := mul64 (asDouble x) (mul64 (formatToNorm f) (normToFormat g)) in
  norm X /\ within (-300) 300 X /\ V X * denOf f x = numOf x * 2 ^ gridExp g * 2 ^ sc.
Proof.
  intros f g x F G O FI X. unfold X. destruct (mul_is f g F G) as (M & ME). rewrite M. pose proof (pad_bound f F) as (B1 & B2 & B3 & B4). destruct (pad_bound g G) as (C1 & C2 & C3 & C4). assert (SC : sc = 1074) by reflexivity.
  assert (GE : 0 <= gridExp g <= 31) by (unfold gridExp; destruct (f_float g); lia).
  assert (SP : norm (asDouble x) /\ within (-149) 128 (asDouble x) /\ exists a, 0 <= a <= 31 /\ scaleExp f g = gridExp g - a /\ V (asDouble x) * denOf f x = numOf x * 2 ^ sc * 2 ^ a).
  { destruct x as [v|v]; cbn [sampleOk] in O; destruct O as (OF & O).
    - assert (PB : 2 ^ (container f - 1) <= 2 ^ 31) by (apply Z.pow_le_mono_r; lia). destruct (of64_val v 0) as (N1 & V1); [change (2 ^ 53) with 9007199254740992; change (2 ^ 31) with 2147483648 in PB; lia|lia|]. change (0 + sc) with sc in V1. cbn [asDouble denOf numOf]. split; [exact N1|]. split.
      + pose proof (within_int _ v 31 N1 V1 ltac:(lia) ltac:(lia)) as W. destruct (of64 v 0); try exact I. cbn [within] in *. lia.
      + exists (container f - 1). split; [lia|]. split; [unfold scaleExp, gridExp; rewrite OF; lia|]. rewrite V1. reflexivity.
    - cbn [finite] in FI. destruct (to64_val v O FI) as (N1 & W1 & V1). cbn [asDouble]. split; [exact N1|]. split; [exact W1|]. exists 0. split; [lia|]. split; [unfold scaleExp, gridExp; rewrite OF; lia|]. rewrite V1, Z.pow_0_r, Z.mul_1_r.
      destruct v as [s|s| |s m e]; try discriminate FI; cbn [V denOf numOf]; [reflexivity|]. destruct (valid32 s m e O) as (D & E). rewrite <- !Z.mul_assoc. f_equal. rewrite <- !Z.pow_add_r by lia. f_equal. lia. }
  destruct SP as (N1 & W1 & a & A & SE & EQ). rewrite SE. destruct (mul_pow2 (asDouble x) (gridExp g - a) (-149) 128 N1 W1 ltac:(lia) ltac:(lia) ltac:(lia)) as (N2 & W2 & V2). split; [exact N2|]. split.
  - destruct (mul64 (asDouble x) (of64 1 (gridExp g - a))); try exact I. cbn [within] in *. lia.
  - specialize (V2 a ltac:(lia) ltac:(lia)). replace (a + (gridExp g - a)) with (gridExp g) in V2 by lia. set (X' := mul64 (asDouble x) (of64 1 (gridExp g - a))) in *. pose proof (pow_pos a ltac:(lia)) as PA.
    apply Z.mul_reg_r with (2 ^ a); [lia|]. replace (V X' * denOf f x * 2 ^ a) with (V X' * 2 ^ a * denOf f x) by ring. rewrite V2. replace (V (asDouble x) * 2 ^ gridExp g * denOf f x) with (V (asDouble x) * denOf f x * 2 ^ gridExp g) by ring. rewrite EQ. ring.
Qed.
(** *** Without dither *)
Lemma add_zero : forall x, norm x -> norm (add64 x (S754_zero false)) /\ V (add64 x (S754_zero false)) = V x.
Proof. intros [s|s| |s m e] N; try contradiction; unfold add64; cbn [SFadd]; [destruct s; (split; [exact I|reflexivity])|split; [exact N|reflexivity]]. Qed.
Theorem exact_step : forall f g dt pos ch x, fmtOk f -> fmtOk g -> f_float g = false -> sampleOk f x -> finite x -> resolveDither dt f g = DNone ->
  convertSample f g dt pos ch x = Ok (storedStep g (nearest f g x)).
Proof.
  intros f g dt pos ch x F G GF O FI RD. unfold convertSample. rewrite GF, RD. cbv zeta. destruct (scaled_val f g x F G O FI) as (N & _ & E). cbv zeta in N, E. set (X := mul64 (asDouble x) _) in *. clearbody X. cbn [ditherValue].
  destruct (add_zero X N) as (N1 & V1). rewrite quantize_val by assumption. rewrite V1. do 2 f_equal. unfold nearest. pose proof (denOf_pos f x F). unfold gridExp in E. rewrite GF in E. apply rnd_cross; [exact sc_pos|assumption|exact E].
Qed.
Lemma dithered_is : forall f g, needsDither f g = dithered f g.
Proof. intros f g. unfold needsDither, dithered. destruct (f_float g), (f_float f); reflexivity. Qed.
(** Infinities are limited. *)
Theorem infinite_step : forall f g dt pos ch s, fmtOk f -> fmtOk g -> f_float g = false -> (forall d, norm (ditherValue d pos ch)) ->
  convertSample f g dt pos ch (Flt (S754_infinity s)) = Ok (Int ((if s then - 2 ^ (f_bits g - 1) else 2 ^ (f_bits g - 1) - 1) * 2 ^ (container g - f_bits g)), true).
Proof.
  intros f g dt pos ch s F G GF ND. unfold convertSample. rewrite GF. cbv zeta. destruct (mul_is f g F G) as (M & ME). rewrite M. cbn [asDouble to64]. rewrite one_pow by lia.
  specialize (ND (resolveDither dt f g)). set (dv := ditherValue (resolveDither dt f g) pos ch) in *. assert (AE : add64 (mul64 (S754_infinity s) (S754_finite false (2 ^ 52) (scaleExp f g - 52))) dv = S754_infinity s). { unfold mul64, add64. cbn [SFmul]. rewrite xorb_false_r. destruct dv; try contradiction; reflexivity. } rewrite AE.
  destruct (pad_bound g G) as (B & C & C16 & CB). assert (SC : sc = 1074) by reflexivity. pose proof sc_pos as SP. set (b := f_bits g) in *.
  assert (PB : 2 ^ 15 <= 2 ^ (b - 1) <= 2 ^ 31) by (split; apply Z.pow_le_mono_r; lia). change (2 ^ 31) with 2147483648 in PB. change (2 ^ 15) with 32768 in PB.
  destruct (of64_val (2 ^ (b - 1)) 0 ltac:(change (2 ^ 53) with 9007199254740992; lia) ltac:(lia)) as (N1 & V1). destruct (of64_val (2 ^ (b - 1) - 1) 0 ltac:(change (2 ^ 53) with 9007199254740992; lia) ltac:(lia)) as (N2 & V2). change (0 + sc) with sc in V1, V2.
  destruct (opp_val _ N1) as (N3 & V3). rewrite V1 in V3.
  assert (CL : clamp64 (S754_infinity s) (SFopp (of64 (2 ^ (b - 1)) 0)) (of64 (2 ^ (b - 1) - 1) 0) = if s then SFopp (of64 (2 ^ (b - 1)) 0) else of64 (2 ^ (b - 1) - 1) 0).
  { unfold clamp64. set (lo := SFopp (of64 (2 ^ (b - 1)) 0)) in *. set (hi := of64 (2 ^ (b - 1) - 1) 0) in *. clearbody lo hi. destruct s, lo as [| | |? ? ?], hi as [| | |? ? ?]; try contradiction; reflexivity. }
  unfold quantize. cbn [round64]. rewrite CL. unfold formatOutputShift, containerBits. rewrite GF. replace (f_bytes g * 8) with (container g) by lia. fold b.
  match goal with |- context [mul64 ?L (of64 1 (container g - b))] => set (l := L) in * end. set (k := if s then - 2 ^ (b - 1) else 2 ^ (b - 1) - 1).
  assert (NL : norm l) by (unfold l; destruct s; assumption). assert (VL : V l = k * 2 ^ sc) by (unfold l, k; destruct s; [rewrite V3; ring|exact V2]). assert (KB : - 2 ^ (b - 1) <= k <= 2 ^ (b - 1) - 1) by (unfold k; destruct s; lia). clearbody l k.
  assert (W : within 0 (31 + 1) l) by (apply within_int with k; [exact NL|exact VL|change (2 ^ 31) with 2147483648; lia|lia]).
  destruct (mul_pow2 l (container g - b) 0 (31 + 1) NL W ltac:(lia) ltac:(lia) ltac:(lia)) as (N7 & _ & V7). specialize (V7 0 ltac:(lia) ltac:(lia)). rewrite Z.add_0_l, Z.pow_0_r, Z.mul_1_r, VL in V7.
  rewrite (castTo_val (f_bytes g) _ (k * 2 ^ (container g - b)) N7).
  - cbn [obind]. do 3 f_equal. destruct l; try contradiction; destruct s; reflexivity.
  - rewrite V7. ring.
  - rewrite <- CB. pose proof (pow_pos (container g - b) ltac:(lia)) as PP. replace (container g - 1) with (b - 1 + (container g - b)) by lia. rewrite Z.pow_add_r by lia. split.
    + rewrite <- Z.mul_opp_l. apply Z.mul_le_mono_nonneg_r; lia.
    + apply Z.mul_lt_mono_pos_r; lia.
Qed.
