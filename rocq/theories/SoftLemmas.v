(** Rounding never produces a NaN and leaves a mantissa of at most [prec] bits. *)
From Coq Require Import ZArith List Lia Bool.
From Coq Require Import SpecFloat.
From Verif Require Import Common Soft.
Import ListNotations.
Open Scope Z_scope.

Lemma shr_1_div : forall r, 0 <= shr_m r -> shr_m (shr_1 r) = shr_m r / 2.
Proof.
  intros [m r s] H. cbn [shr_m] in *. destruct m as [|p|p]; [reflexivity| |lia].
  destruct p as [p|p|]; cbn [shr_1 shr_m].
  - replace (Z.pos p~1) with (1 + Z.pos p * 2) by lia. rewrite Z.div_add by lia. reflexivity.
  - replace (Z.pos p~0) with (Z.pos p * 2) by lia. rewrite Z.div_mul by lia. reflexivity.
  - reflexivity.
Qed.

Lemma iter_shr : forall p r, 0 <= shr_m r -> shr_m (iter_pos shr_1 p r) = shr_m r / 2 ^ Z.pos p.
Proof.
  assert (N : forall a b, 0 <= a -> 0 <= b -> 0 <= a / 2 ^ b) by (intros; apply Z.div_pos; [lia | apply Z.pow_pos_nonneg; lia]).
  induction p as [p IH|p IH|]; intros r H; cbn [iter_pos].
  - pose proof (shr_1_div r H) as S1. assert (H1 : 0 <= shr_m (shr_1 r)) by (rewrite S1; apply Z.div_pos; lia).
    rewrite IH; rewrite IH by exact H1; [|apply N; lia]. rewrite S1. rewrite !Z.div_div by (try apply Z.pow_nonzero; try apply Z.mul_pos_pos; try apply Z.pow_pos_nonneg; lia).
    f_equal. replace (Z.pos p~1) with (1 + Z.pos p + Z.pos p) by lia. rewrite !Z.pow_add_r by lia. ring.
  - rewrite IH; rewrite IH by exact H; [|apply N; lia]. rewrite !Z.div_div by (try apply Z.pow_nonzero; try apply Z.pow_pos_nonneg; lia).
    f_equal. replace (Z.pos p~0) with (Z.pos p + Z.pos p) by lia. rewrite !Z.pow_add_r by lia. reflexivity.
  - rewrite shr_1_div by exact H. reflexivity.
Qed.

Lemma shr_div : forall r e n, 0 <= shr_m r -> shr_m (fst (shr r e n)) = shr_m r / 2 ^ (Z.max 0 n).
Proof.
  intros r e n H. destruct n as [|p|p]; cbn [shr fst].
  - cbn. rewrite Z.div_1_r. reflexivity.
  - rewrite iter_shr by exact H. f_equal.
  - rewrite Z.max_l by lia. cbn. rewrite Z.div_1_r. reflexivity.
Qed.

Lemma digits2_bound : forall p, Z.pos p < 2 ^ Z.pos (digits2_pos p).
Proof.
  induction p as [p IH|p IH|]; cbn [digits2_pos]; [| |reflexivity];
    rewrite Pos2Z.inj_succ, Z.pow_succ_r by lia; lia.
Qed.
Lemma Zdigits2_bound : forall m, 0 <= m -> 0 <= Zdigits2 m /\ m < 2 ^ Zdigits2 m.
Proof. intros [|p|p] H; cbn [Zdigits2]; [split; lia | split; [lia | apply digits2_bound] | lia]. Qed.

Lemma rec_of_loc : forall m l, shr_m (shr_record_of_loc m l) = m.
Proof. intros m [|[]]; reflexivity. Qed.

Section Prec.
Variables prec emax : Z.
Hypothesis P : 0 < prec.

Lemma shr_fexp_bound : forall m e l, 0 <= m -> let r := shr_m (fst (shr_fexp prec emax m e l)) in 0 <= r < 2 ^ prec.
Proof.
  intros m e l M. cbv zeta. unfold shr_fexp. rewrite shr_div by (rewrite rec_of_loc; exact M). rewrite rec_of_loc.
  destruct (Zdigits2_bound m M) as (D0 & D1). set (d := Zdigits2 m) in *.
  set (n := Z.max 0 (fexp prec emax (d + e) - e)).
  assert (N : 0 <= n /\ d - prec <= n) by (unfold n, fexp; lia).
  assert (PN : 0 < 2 ^ n) by (apply Z.pow_pos_nonneg; lia).
  split; [apply Z.div_pos; lia|]. apply Z.div_lt_upper_bound; [lia|].
  rewrite <- Z.pow_add_r by lia. apply Z.lt_le_trans with (2 ^ d); [exact D1|]. apply Z.pow_le_mono_r; lia.
Qed.

Lemma rne_nonneg : forall m l, 0 <= m -> 0 <= round_nearest_even m l.
Proof. intros m [|[]] H; cbn [round_nearest_even]; try destruct (Z.even m); lia. Qed.

(** Mantissas of [prec] bits, no NaN. *)
Definition short (x : spec_float) : Prop :=
  match x with S754_finite _ m _ => Z.pos m < 2 ^ prec | S754_nan => False | _ => True end.

Lemma round_aux_short : forall s m e l, 0 <= m -> short (binary_round_aux prec emax s m e l).
Proof.
  intros s m e l M. unfold binary_round_aux.
  pose proof (shr_fexp_bound m e l M) as B1. destruct (shr_fexp prec emax m e l) as (r1 & e1) eqn:E1. cbn [fst] in B1. cbv zeta in B1.
  set (m1 := round_nearest_even (shr_m r1) (loc_of_shr_record r1)).
  assert (M1 : 0 <= m1) by (apply rne_nonneg; lia).
  pose proof (shr_fexp_bound m1 e1 loc_Exact M1) as B2. destruct (shr_fexp prec emax m1 e1 loc_Exact) as (r2 & e2). cbn [fst] in B2. cbv zeta in B2.
  destruct (shr_m r2) as [|q|q]; cbn [short]; [exact I | | lia]. destruct (Zle_bool e2 (emax - prec)); cbn [short]; [lia | exact I].
Qed.

Lemma round_short : forall s m e, short (binary_round prec emax s m e).
Proof. intros s m e. unfold binary_round. destruct (shl_align m e _) as (mz & ez). apply round_aux_short. lia. Qed.
Lemma normalize_short : forall m e z, short (binary_normalize prec emax m e z).
Proof. intros [|m|m] e z; cbn [binary_normalize]; [exact I | apply round_short | apply round_short]. Qed.

Lemma mul_short : forall x y, isFin x = true -> isFin y = true -> short (SFmul prec emax x y).
Proof.
  intros [sx| | |sx mx ex] [sy| | |sy my ey] X Y; try discriminate; cbn [SFmul]; try exact I. apply round_aux_short. lia.
Qed.
(** One operand may be infinite. *)
Lemma add_short : forall x y, short x -> short y -> isFin y = true -> short (SFadd prec emax x y).
Proof.
  intros [sx|sx| |sx mx ex] [sy|sy| |sy my ey] X Y F; try discriminate; try contradiction; cbn [SFadd]; try exact I; try assumption.
  - destruct (Bool.eqb sx sy); exact I.
  - apply normalize_short.
Qed.
Lemma abs_short : forall x, short x -> short (SFabs x).
Proof. intros [s|s| |s m e] H; exact H. Qed.
End Prec.

(** Clamping a short float to [0, top] gives an integer of that range. *)
Lemma mag_rne_bounds : forall m e B, 0 <= B -> e < 0 -> Z.pos m <= B * 2 ^ (- e) -> 0 <= mag_rne m e <= B.
Proof.
  intros m e B B0 E M. unfold mag_rne. destruct (Z.leb_spec 0 e); [lia|]. cbv zeta.
  set (d := 2 ^ (- e)) in *. assert (D : 0 < d) by (apply Z.pow_pos_nonneg; lia).
  pose proof (Z.div_mod (Z.pos m) d ltac:(lia)) as DM. pose proof (Z.mod_pos_bound (Z.pos m) d D) as MB.
  set (q := Z.pos m / d) in *. set (r := Z.pos m mod d) in *.
  assert (Q0 : 0 <= q) by (apply Z.div_pos; lia).
  assert (QB : q < B \/ q = B /\ r = 0).
  { assert (q <= B) by (apply Z.div_le_upper_bound; [exact D | lia]). destruct (Z.eq_dec q B) as [->|]; [right; split; [reflexivity | nia] | lia]. }
  destruct (Z.ltb_spec (2 * r) d); [lia|]. destruct (Z.ltb_spec d (2 * r)); [lia|]. destruct (Z.even q); lia.
Qed.

(** std::max(x, 0), std::min(.., 2^n - 1), lrint. *)
Definition top32 (b : positive) : Z := Z.pos b.

Lemma of32_zero : of32 0 0 = S754_zero false.
Proof. reflexivity. Qed.

Lemma clamp_lrint : forall x B mb eb, short 24 x -> of32 B 0 = S754_finite false mb eb ->
  0 <= B < 2 ^ 24 -> eb < 0 -> Z.pos mb = B * 2 ^ (- eb) -> 2 ^ 23 <= Z.pos mb ->
  exists v, lrint (fmin (fmax x (of32 0 0)) (of32 B 0)) = Ok v /\ 0 <= v <= B.
Proof.
  intros x B mb eb S E BB EB MB NB. rewrite E, of32_zero.
  assert (IB : forall v, 0 <= v <= B -> in_int64b v = true).
  { intros v V. apply in_int64b_spec. unfold in_int64, INT64_MIN, INT64_MAX. lia. }
  assert (TOP : mag_rne mb eb = B).
  { pose proof (mag_rne_bounds mb eb B ltac:(lia) EB ltac:(lia)). unfold mag_rne in *. destruct (Z.leb_spec 0 eb); [lia|]. cbv zeta in *.
    assert (D : 0 < 2 ^ (- eb)) by (apply Z.pow_pos_nonneg; lia).
    rewrite MB in *. rewrite Z.mod_mul in * by lia. rewrite Z.div_mul in * by lia. destruct (Z.ltb_spec (2 * 0) (2 ^ (- eb))); lia. }
  assert (LT : lrint (S754_finite false mb eb) = Ok B).
  { cbn [lrint signed]. rewrite TOP, (IB B) by lia. reflexivity. }
  destruct x as [s|s| |s m e].
  - cbn [fmax SFltb SFcompare fmin lrint]. exists 0. split; [reflexivity | lia].
  - destruct s; cbn [fmax SFltb SFcompare fmin].
    + exists 0. split; [reflexivity | lia].
    + exists B. split; [exact LT | lia].
  - contradiction S.
  - destruct s.
    + cbn [fmax SFltb SFcompare fmin lrint]. exists 0. split; [reflexivity | lia].
    + unfold fmax, SFltb. cbn [SFcompare]. unfold fmin, SFltb. cbn [SFcompare].
      assert (K : e < eb \/ e = eb /\ Z.pos m <= Z.pos mb \/ (eb < e \/ e = eb /\ Z.pos mb < Z.pos m)) by lia.
      destruct K as [K|[K|K]].
      * assert (C : (eb ?= e) = Gt) by (apply Z.compare_gt_iff; lia). rewrite C.
        exists (mag_rne m e). cbn [lrint signed]. pose proof (mag_rne_bounds m e B ltac:(lia) ltac:(lia)) as R.
        assert (MM : Z.pos m <= B * 2 ^ (- e)).
        { cbn [short] in S. replace (- e) with (- eb + (eb - e)) by lia. rewrite Z.pow_add_r, Z.mul_assoc, <- MB by lia.
          replace (eb - e) with (1 + (eb - e - 1)) by lia. rewrite Z.pow_add_r by lia.
          assert (1 <= 2 ^ (eb - e - 1)) by (pose proof (Z.pow_pos_nonneg 2 (eb - e - 1)); lia). nia. }
        specialize (R MM). rewrite IB by exact R. split; [reflexivity | exact R].
      * destruct K as (-> & K). rewrite Z.compare_refl.
        assert (C : Pos.compare_cont Eq mb m <> Lt).
        { change (Pos.compare mb m <> Lt). intros C. apply Pos.compare_lt_iff, Pos2Z.pos_lt_pos in C. clear - K C. lia. }
        assert (R : 0 <= mag_rne m eb <= B) by (apply mag_rne_bounds; lia).
        exists (mag_rne m eb). split; [|exact R].
        destruct (Pos.compare_cont Eq mb m); [| contradiction |]; cbn [lrint signed]; rewrite IB by exact R; reflexivity.
      * exists B. split; [|lia]. destruct K as [K|(-> & K)].
        -- assert (C : (eb ?= e) = Lt) by (apply Z.compare_lt_iff; lia). rewrite C. exact LT.
        -- rewrite Z.compare_refl. assert (C : Pos.compare_cont Eq mb m = Lt) by (change (Pos.compare mb m = Lt); apply Pos.compare_lt_iff; lia).
           rewrite C. exact LT.
Qed.
