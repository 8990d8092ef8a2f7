(** Upper bounds of single precision results by numbers that single precision can represent:
    rounding to nearest does not pass them.  The results are in normal form. *)
From Coq Require Import ZArith List Lia Bool.
From Coq Require Import SpecFloat.
From Verif Require Import Common Soft SoftLemmas SoftBounds SoftErr.
Import ListNotations.
Open Scope Z_scope.

(** A float whose mantissa is full or whose exponent is the smallest one. *)
Definition canon (x : fl) : Prop :=
  match x with
  | S754_zero _ => True
  | S754_finite _ m e => Z.pos m < 2 ^ 24 /\ -149 <= e /\ (2 ^ 23 <= Z.pos m \/ e = -149)
  | _ => False
  end.
(** At most [b] 2^[n] in magnitude. *)
Definition magLe (b n : Z) (x : fl) : Prop :=
  match x with
  | S754_zero _ => True
  | S754_finite _ m e => e <= n /\ Z.pos m <= b * 2 ^ (n - e)
  | _ => False
  end.

Definition okLe (b n : Z) (x : fl) : Prop := canon x /\ magLe b n x.

Lemma full_digits : forall p, 24 <= Zdigits2 (Z.pos p) <-> 2 ^ 23 <= Z.pos p.
Proof.
  intros p. pose proof (digits2_low p) as D1. pose proof (digits2_bound p) as D2. cbn [Zdigits2]. split; intros H.
  - apply Z.le_trans with (2 ^ (Z.pos (digits2_pos p) - 1)); [apply Z.pow_le_mono_r; lia | exact D1].
  - destruct (Z_lt_le_dec (Z.pos (digits2_pos p)) 24) as [Q|Q]; [|exact Q]. exfalso.
    assert (2 ^ Z.pos (digits2_pos p) <= 2 ^ 23) by (apply Z.pow_le_mono_r; lia). lia.
Qed.

Lemma aux_le : forall s p e l b n, 24 <= Zdigits2 (Z.pos p) \/ e <= -149 -> 2 ^ 23 <= b < 2 ^ 24 -> -149 <= n <= 104 ->
  e <= n -> Z.pos p <= b * 2 ^ (n - e) -> (Z.pos p = b * 2 ^ (n - e) -> l = loc_Exact) ->
  let r := binary_round_aux 24 128 s (Z.pos p) e l in canon r /\ magLe b n r.
Proof.
  intros s p e l b n DG BB NN EN PL PE r. subst r. change (okLe b n (binary_round_aux 24 128 s (Z.pos p) e l)).
  set (M := Z.pos p) in *.
  assert (LOC : exists t, 0 <= t < 4 /\ (t = 0 -> l = loc_Exact) /\ (l = loc_Exact -> t = 0) /\ inLoc (4 * M + t) 4 M l).
  { destruct l as [|[]]; [exists 0 | exists 2 | exists 1 | exists 3]; (split; [lia|]; split; [intros; (reflexivity || lia)|]; split; [intros Q; (discriminate Q || reflexivity)|]; cbn [inLoc]; lia). }
  destruct LOC as (t & T0 & T1 & T2 & L).
  assert (NB : 4 * M + t <= 4 * (b * 2 ^ (n - e))).
  { destruct (Z.eq_dec M (b * 2 ^ (n - e))) as [Q|Q]; [specialize (T2 (PE Q)); lia | lia]. }
  set (k := Z.max 0 (fexp 24 128 (Zdigits2 M + e) - e)).
  assert (DM : Zdigits2 M + e <= 24 + n).
  { pose proof (digits2_low p) as D1. change (Z.pos (digits2_pos p)) with (Zdigits2 M) in D1. fold M in D1.
    destruct (Z_le_gt_dec (Zdigits2 M + e) (24 + n)) as [Q|Q]; [exact Q|]. exfalso.
    assert (X : 2 ^ (24 + (n - e)) <= 2 ^ (Zdigits2 M - 1)) by (apply Z.pow_le_mono_r; lia).
    rewrite Z.pow_add_r in X by lia. assert (0 < 2 ^ (n - e)) by (apply Z.pow_pos_nonneg; lia). nia. }
  assert (KN : e + k <= n) by (unfold k, fexp, SpecFloat.emin; lia).
  assert (KE : e + k = Z.max (Zdigits2 M + e - 24) (-149) \/ 24 = Zdigits2 M /\ k = 0).
  { unfold k, fexp, SpecFloat.emin. destruct DG as [DG|DG]; lia. }
  assert (P2 : 0 < 2 ^ k) by (apply Z.pow_pos_nonneg; unfold k; lia).
  unfold binary_round_aux. unfold shr_fexp at 1.
  pose proof (shr_at (4 * M + t) 4 _ e (fexp 24 128 (Zdigits2 M + e) - e) ltac:(lia) (rec_at _ _ M l ltac:(unfold M; lia) L)) as (RM & RL).
  pose proof (shr_div (shr_record_of_loc M l) e (fexp 24 128 (Zdigits2 M + e) - e) ltac:(rewrite rec_of_loc; unfold M; lia)) as SD.
  pose proof (shr_exp (shr_record_of_loc M l) e (fexp 24 128 (Zdigits2 M + e) - e)) as SE.
  rewrite rec_of_loc in SD. fold k in RL, SD, SE.
  destruct (shr _ _ _) as (r & e1). cbn [fst snd] in *. subst e1.
  set (m1 := round_nearest_even (shr_m r) (loc_of_shr_record r)) in *.
  assert (MB : 0 <= shr_m r < 2 ^ 24 /\ (2 ^ 23 <= shr_m r \/ e + k = -149)).
  { rewrite SD. pose proof (digits2_low p) as D1. pose proof (digits2_bound p) as D2. change (Z.pos (digits2_pos p)) with (Zdigits2 M) in *. fold M in D1, D2.
    split; [split; [apply Z.div_pos; unfold M; lia | apply Z.div_lt_upper_bound; [lia|]]|].
    - rewrite <- Z.pow_add_r by (unfold k; lia). apply Z.lt_le_trans with (1 := D2). apply Z.pow_le_mono_r; [lia|]. unfold k, fexp, SpecFloat.emin. lia.
    - destruct (Z.eq_dec (e + k) (-149)) as [Q|Q]; [right; exact Q|]. left. apply Z.div_le_lower_bound; [lia|].
      rewrite <- Z.pow_add_r by (unfold k; lia). apply Z.le_trans with (2 := D1). apply Z.pow_le_mono_r; lia. }
  assert (M1 : shr_m r <= m1 <= shr_m r + 1) by (unfold m1; destruct (loc_of_shr_record r) as [|[]]; cbn [round_nearest_even]; try destruct (Z.even (shr_m r)); lia).
  assert (MT : m1 <= b * 2 ^ (n - (e + k))).
  { set (T := b * 2 ^ (n - (e + k))). assert (TE : b * 2 ^ (n - e) = T * 2 ^ k).
    { unfold T. rewrite <- Z.mul_assoc, <- Z.pow_add_r by (unfold k in *; lia). f_equal. f_equal. lia. }
    rewrite TE in NB. destruct (Z_le_gt_dec (shr_m r + 1) T) as [Q|Q]; [lia|].
    unfold m1. destruct (loc_of_shr_record r) as [|[]]; cbn [inLoc round_nearest_even] in *; try nia. }
  assert (BP : 0 < 2 ^ (n - (e + k))) by (apply Z.pow_pos_nonneg; lia).
  destruct (Z.eq_dec m1 (2 ^ 24)) as [C|C].
  - assert (E1 : e + k < n). { destruct (Z.eq_dec (e + k) n) as [Q|Q]; [|lia]. rewrite Q, Z.sub_diag, Z.pow_0_r in MT. lia. }
    assert (D1 : Zdigits2 m1 = 25) by (rewrite C; reflexivity).
    unfold shr_fexp. rewrite D1. replace (fexp 24 128 (25 + (e + k)) - (e + k)) with 1 by (unfold fexp, SpecFloat.emin; unfold k, fexp, SpecFloat.emin in *; lia).
    rewrite C. cbn [shr SpecFloat.iter_pos shr_record_of_loc].
    change (shr_m (shr_1 {| shr_m := 2 ^ 24; shr_r := false; shr_s := false |})) with 8388608. change (match 8388608 with 0 => S754_zero s | Z.pos m => if e + k + 1 <=? 128 - 24 then S754_finite s m (e + k + 1) else S754_infinity s | Z.neg _ => S754_nan end) with (if e + k + 1 <=? 128 - 24 then S754_finite s 8388608 (e + k + 1) else S754_infinity s).
    destruct (Z.leb_spec (e + k + 1) (128 - 24)); [|lia]. unfold okLe. split.
    + cbn [canon]. split; [lia|]. split; [unfold k, fexp, SpecFloat.emin; lia | left; lia].
    + cbn [magLe]. split; [lia|]. rewrite C in MT. replace (n - (e + k)) with (1 + (n - (e + k + 1))) in MT by lia.
      rewrite Z.pow_add_r in MT by lia. change (2 ^ 1) with 2 in MT. lia.
  - assert (DL : 0 <= Zdigits2 m1 <= 24) by (apply Zdigits2_le; lia).
    unfold shr_fexp. replace (shr (shr_record_of_loc m1 loc_Exact) (e + k) (fexp 24 128 (Zdigits2 m1 + (e + k)) - (e + k))) with (shr_record_of_loc m1 loc_Exact, e + k).
    2:{ destruct (fexp 24 128 (Zdigits2 m1 + (e + k)) - (e + k)) as [|z|z] eqn:Q; try reflexivity. exfalso.
        assert (-149 <= e + k) by (unfold k, fexp, SpecFloat.emin; lia). unfold fexp, SpecFloat.emin in Q. lia. }
    cbn [shr_record_of_loc shr_m].
    assert (E3 : -149 <= e + k) by (unfold k, fexp, SpecFloat.emin; lia).
    destruct m1 as [|q|q] eqn:Q1; [split; exact I| |lia].
    destruct (Z.leb_spec (e + k) (128 - 24)); [|lia]. unfold okLe. split.
    + cbn [canon]. split; [lia|]. split; [exact E3|]. destruct MB as (_ & [MB|MB]); [left; lia | right; exact MB].
    + cbn [magLe]. split; [exact KN | exact MT].
Qed.

Lemma round_le : forall s p e b n, 2 ^ 23 <= b < 2 ^ 24 -> -149 <= n <= 104 -> e <= n -> Z.pos p <= b * 2 ^ (n - e) ->
  let r := binary_round 24 128 s p e in canon r /\ magLe b n r.
Proof.
  intros s p e b n BB NN EN PL r. subst r. unfold binary_round.
  pose proof (shl_align_spec p e (fexp 24 128 (Z.pos (digits2_pos p) + e))) as (S1 & S2).
  destruct (shl_align p e _) as (mz & ez). cbn [fst snd] in *. subst ez.
  set (x := fexp 24 128 (Z.pos (digits2_pos p) + e)) in *.
  assert (DG : 24 <= Zdigits2 (Z.pos mz) \/ Z.min e x <= -149).
  { rewrite S2, Zdigits2_mul by lia. cbn [Zdigits2]. unfold x, fexp, SpecFloat.emin. lia. }
  apply aux_le; try assumption; try lia; [|reflexivity].
  rewrite S2. replace (n - Z.min e x) with ((n - e) + (e - Z.min e x)) by lia. rewrite Z.pow_add_r by lia.
  assert (0 < 2 ^ (e - Z.min e x)) by (apply Z.pow_pos_nonneg; lia). nia.
Qed.

Lemma normalize_le : forall m e z b n, 2 ^ 23 <= b < 2 ^ 24 -> -149 <= n <= 104 -> e <= n -> Z.abs m <= b * 2 ^ (n - e) ->
  let r := binary_normalize 24 128 m e z in canon r /\ magLe b n r.
Proof.
  intros [|m|m] e z b n BB NN EN PL; cbn [binary_normalize]; [split; exact I| |]; apply round_le; assumption.
Qed.

Lemma mul_le : forall x y b1 n1 b2 n2 b n, canon x -> canon y -> magLe b1 n1 x -> magLe b2 n2 y ->
  2 ^ 23 <= b < 2 ^ 24 -> -149 <= n <= 104 -> 0 <= b1 -> 0 <= b2 -> n1 + n2 <= n -> b1 * b2 <= b * 2 ^ (n - (n1 + n2)) ->
  canon (mul32 x y) /\ magLe b n (mul32 x y).
Proof.
  intros [sx|sx| |sx mx ex] [sy|sy| |sy my ey] b1 n1 b2 n2 b n CX CY LX LY BB NN B1 B2 N P; try contradiction; unfold mul32; cbn [SFmul]; try (split; exact I).
  cbn [canon magLe] in *. change (Z.pos (mx * my)) with (Z.pos mx * Z.pos my) in *.
  assert (0 < 2 ^ (n1 - ex)) by (apply Z.pow_pos_nonneg; lia). assert (0 < 2 ^ (n2 - ey)) by (apply Z.pow_pos_nonneg; lia).
  apply (aux_le (xorb sx sy) (mx * my)%positive (ex + ey) loc_Exact b n); try assumption; try lia; [| |reflexivity].
  - destruct CX as (_ & _ & [C|C]); [left|destruct CY as (_ & _ & [D|D]); [left | right; lia]].
    + apply full_digits. rewrite Pos2Z.inj_mul. nia.
    + apply full_digits. rewrite Pos2Z.inj_mul. nia.
  - rewrite Pos2Z.inj_mul. replace (n - (ex + ey)) with ((n - (n1 + n2)) + ((n1 - ex) + (n2 - ey))) by lia.
    rewrite !(Z.pow_add_r 2 _ (_ + _)), Z.pow_add_r by lia.
    apply Z.le_trans with ((b1 * 2 ^ (n1 - ex)) * (b2 * 2 ^ (n2 - ey))); [apply Z.mul_le_mono_nonneg; lia|].
    replace (b1 * 2 ^ (n1 - ex) * (b2 * 2 ^ (n2 - ey))) with ((b1 * b2) * (2 ^ (n1 - ex) * 2 ^ (n2 - ey))) by ring.
    replace (b * (2 ^ (n - (n1 + n2)) * (2 ^ (n1 - ex) * 2 ^ (n2 - ey)))) with (b * 2 ^ (n - (n1 + n2)) * (2 ^ (n1 - ex) * 2 ^ (n2 - ey))) by ring.
    apply Z.mul_le_mono_nonneg_r; [lia | exact P].
Qed.

Lemma magLe_mono : forall b n b' n' x, magLe b n x -> 0 <= b -> n <= n' -> b <= b' * 2 ^ (n' - n) -> magLe b' n' x.
Proof.
  intros b n b' n' [s|s| |s m e] H B N P; try contradiction; cbn [magLe] in *; [exact I|]. split; [lia|].
  replace (n' - e) with ((n' - n) + (n - e)) by lia. rewrite Z.pow_add_r by lia.
  assert (0 < 2 ^ (n - e)) by (apply Z.pow_pos_nonneg; lia). nia.
Qed.

Lemma add_le : forall x y b1 b2 n0 b n, canon x -> canon y -> magLe b1 n0 x -> magLe b2 n0 y ->
  2 ^ 23 <= b < 2 ^ 24 -> -149 <= n <= 104 -> 0 <= b1 -> 0 <= b2 -> n0 <= n -> b1 + b2 <= b * 2 ^ (n - n0) ->
  canon (add32 x y) /\ magLe b n (add32 x y).
Proof.
  intros x y b1 b2 n0 b n CX CY LX LY BB NN B1 B2 N P.
  assert (WX : magLe b n x) by (apply (magLe_mono b1 n0); try assumption; lia).
  assert (WY : magLe b n y) by (apply (magLe_mono b2 n0); try assumption; lia).
  destruct x as [sx|sx| |sx mx ex], y as [sy|sy| |sy my ey]; try contradiction; unfold add32; cbn [SFadd]; try (split; assumption).
  - destruct (Bool.eqb sx sy); split; exact I.
  - cbn [canon magLe] in CX, CY, LX, LY. set (ez := Z.min ex ey).
    pose proof (shl_align_spec mx ex ez) as (_ & SX). pose proof (shl_align_spec my ey ez) as (_ & SY).
    rewrite Z.min_r in SX, SY by (unfold ez; lia).
    apply normalize_le; [exact BB | exact NN | unfold ez; lia |].
    assert (AB : forall s z, Z.abs (cond_Zopp s (Z.pos z)) = Z.pos z) by (intros [] z; reflexivity).
    eapply Z.le_trans; [apply Z.abs_triangle|]. rewrite !AB, SX, SY.
    assert (QX : Z.pos mx * 2 ^ (ex - ez) <= b1 * 2 ^ (n0 - ez)).
    { replace (n0 - ez) with ((n0 - ex) + (ex - ez)) by lia. rewrite Z.pow_add_r by (unfold ez; lia).
      assert (0 < 2 ^ (ex - ez)) by (apply Z.pow_pos_nonneg; unfold ez; lia). nia. }
    assert (QY : Z.pos my * 2 ^ (ey - ez) <= b2 * 2 ^ (n0 - ez)).
    { replace (n0 - ez) with ((n0 - ey) + (ey - ez)) by lia. rewrite Z.pow_add_r by (unfold ez; lia).
      assert (0 < 2 ^ (ey - ez)) by (apply Z.pow_pos_nonneg; unfold ez; lia). nia. }
    replace (n - ez) with ((n - n0) + (n0 - ez)) by lia. rewrite Z.pow_add_r by (unfold ez; lia).
    assert (0 < 2 ^ (n0 - ez)) by (apply Z.pow_pos_nonneg; unfold ez; lia). nia.
Qed.

Lemma sqrt_le : forall x b1 n1 b n, canon x -> (match x with S754_finite s _ _ => s = false | _ => True end) -> magLe b1 n1 x ->
  2 ^ 23 <= b < 2 ^ 24 -> -74 <= n <= 104 -> 0 <= b1 -> 2 * n <= n1 -> b1 * 2 ^ (n1 - 2 * n) <= b * b ->
  canon (SFsqrt 24 128 x) /\ magLe b n (SFsqrt 24 128 x).
Proof.
  intros [s|s| |s m e] b1 n1 b n C S L BB NN B1 N P; try contradiction; cbn [SFsqrt]; [split; exact I|]. subst s.
  cbn [canon magLe] in C, L. unfold SFsqrt_core_binary.
  set (d := Zdigits2 (Z.pos m)). set (e' := Z.min (fexp 24 128 (Z.div2 (d + e + 1))) (Z.div2 e)).
  set (m' := match e - 2 * e' with Z.pos p => _ | _ => _ end).
  assert (D2 : forall z, Z.div2 z = z / 2) by (intros; apply Z.div2_div).
  assert (E2 : 2 * e' <= e). { unfold e'. rewrite (D2 e). pose proof (Z.mul_div_le e 2). lia. }
  assert (ME : m' = Z.pos m * 2 ^ (e - 2 * e')).
  { unfold m'. destruct (e - 2 * e') as [|q|q] eqn:Q; [cbn; lia | rewrite Z.shiftl_mul_pow2 by lia; reflexivity | lia]. }
  assert (MP : 0 < m'). { rewrite ME. assert (0 < 2 ^ (e - 2 * e')) by (apply Z.pow_pos_nonneg; lia). lia. }
  assert (EN : e' <= n).
  { assert (DE : d + e <= 48 + 2 * n).
    { pose proof (digits2_low m) as D1. change (Z.pos (digits2_pos m)) with d in D1. destruct (Z_le_gt_dec (d + e) (48 + 2 * n)) as [Q|Q]; [exact Q|]. exfalso.
      assert (X : Z.pos m * 2 ^ (n1 - 2 * n) <= b * b * 2 ^ (n1 - e)).
      { assert (0 < 2 ^ (n1 - 2 * n)) by (apply Z.pow_pos_nonneg; lia). assert (0 < 2 ^ (n1 - e)) by (apply Z.pow_pos_nonneg; lia).
        apply Z.le_trans with (b1 * 2 ^ (n1 - e) * 2 ^ (n1 - 2 * n)); [apply Z.mul_le_mono_nonneg_r; lia|].
        replace (b1 * 2 ^ (n1 - e) * 2 ^ (n1 - 2 * n)) with (b1 * 2 ^ (n1 - 2 * n) * 2 ^ (n1 - e)) by ring. apply Z.mul_le_mono_nonneg_r; lia. }
      assert (0 < d) by (unfold d; cbn; lia).
      assert (Y : 2 ^ (48 + (n1 - e)) <= 2 ^ (d - 1 + (n1 - 2 * n))) by (apply Z.pow_le_mono_r; lia).
      rewrite !Z.pow_add_r in Y by lia. assert (0 < 2 ^ (n1 - 2 * n)) by (apply Z.pow_pos_nonneg; lia). assert (0 < 2 ^ (n1 - e)) by (apply Z.pow_pos_nonneg; lia).
      assert (BQ : b * b < 2 ^ 48) by nia. nia. }
    unfold e', fexp, SpecFloat.emin. rewrite (D2 (d + e + 1)). assert ((d + e + 1) / 2 < 25 + n) by (apply Z.div_lt_upper_bound; lia). lia. }
  assert (MB : m' <= (b * 2 ^ (n - e')) * (b * 2 ^ (n - e'))).
  { rewrite ME. replace (b * 2 ^ (n - e') * (b * 2 ^ (n - e'))) with (b * b * (2 ^ (n - e') * 2 ^ (n - e'))) by ring. rewrite <- Z.pow_add_r by lia.
    assert (0 < 2 ^ (e - 2 * e')) by (apply Z.pow_pos_nonneg; lia).
    apply Z.le_trans with (b1 * 2 ^ (n1 - e) * 2 ^ (e - 2 * e')); [apply Z.mul_le_mono_nonneg_r; lia|].
    rewrite <- Z.mul_assoc, <- Z.pow_add_r by lia. replace (n1 - e + (e - 2 * e')) with ((n1 - 2 * n) + (n - e' + (n - e'))) by lia.
    rewrite (Z.pow_add_r 2 (n1 - 2 * n)) by lia. rewrite Z.mul_assoc. apply Z.mul_le_mono_nonneg_r; [apply Z.pow_nonneg; lia | assumption]. }
  pose proof (Z.sqrtrem_spec m' ltac:(lia)) as QS. destruct (Z.sqrtrem m') as (q & r). destruct QS as (QE & QR).
  assert (QP : 0 < q) by nia. set (T := b * 2 ^ (n - e')) in *. assert (TP : 0 < T) by (assert (0 < 2 ^ (n - e')) by (apply Z.pow_pos_nonneg; lia); unfold T; nia).
  assert (QT : q <= T) by nia.
  destruct q as [|q|q]; try lia.
  apply aux_le; try assumption; try lia.
  - destruct (Z_le_gt_dec e' (-149)) as [Q|Q]; [right; exact Q|]. left. apply full_digits.
    assert (X : 2 ^ 46 <= m').
    { rewrite ME. pose proof (digits2_low m) as D1. change (Z.pos (digits2_pos m)) with d in D1.
      assert (X : 2 * e' <= d + e + 1 - 48).
      { unfold e', fexp, SpecFloat.emin in Q |- *. rewrite !D2 in *. pose proof (Z.mul_div_le (d + e + 1) 2). lia. }
      assert (0 < d) by (unfold d; cbn; lia).
      assert (Y : 2 ^ 46 <= 2 ^ ((d - 1) + (e - 2 * e'))) by (apply Z.pow_le_mono_r; lia).
      rewrite Z.pow_add_r in Y by lia. assert (0 < 2 ^ (e - 2 * e')) by (apply Z.pow_pos_nonneg; lia). nia. }
    nia.
  - intros Q. fold T in Q. rewrite <- Q in MB. assert (R : r = 0) by lia. rewrite R. reflexivity.
Qed.

Lemma abs_canon : forall x, canon x -> canon (SFabs x).
Proof. intros [s|s| |s m e] H; exact H. Qed.
Lemma abs_magLe : forall b n x, magLe b n x -> magLe b n (SFabs x).
Proof. intros b n [s|s| |s m e] H; exact H. Qed.
