(** Levels: the tables and the frames. *)
From Coq Require Import ZArith List Lia Bool.
From Coq Require Import SpecFloat.
From Verif Require Import Common FormatSpec Format Frame FrameSpec FrameGeom ImageSpec PlaneMem Spatial SpatialLemmas SpatialStack FrameFacts.
From Verif Require Import PixelSpec Pixel PixelLemmas Lut LutLemmas LutFrames.
From Verif Require Import Soft SoftLemmas SoftBounds SoftRound GenericSpec Generic GenericLemmas GenericOps GenericPlanes GenericFloat GenericFrames GenericSingle.
Import ListNotations.
Open Scope Z_scope.

(** ** Clamping, adding a half and truncating *)

Lemma half_is : of32 1 (-1) = S754_finite false 8388608 (-24).
Proof. vm_compute. reflexivity. Qed.

Lemma top_is : forall bits, 8 <= bits <= 16 -> exists p, of32 (2 ^ bits - 1) 0 = S754_finite false p (bits - 24) /\ Z.pos p = (2 ^ bits - 1) * 2 ^ (24 - bits).
Proof.
  intros bits B.
  assert (C : bits = 8 \/ bits = 9 \/ bits = 10 \/ bits = 11 \/ bits = 12 \/ bits = 13 \/ bits = 14 \/ bits = 15 \/ bits = 16) by lia.
  destruct C as [->|[->|[->|[->|[->|[->|[->|[->| ->]]]]]]]]; (vm_compute (of32 _ _); eexists; split; [reflexivity | vm_compute; reflexivity]).
Qed.

Lemma add_half : forall bits m e, 8 <= bits <= 16 -> Z.pos m < 2 ^ 24 -> e <= bits - 24 -> Z.pos m <= (2 ^ bits - 1) * 2 ^ (- e) ->
  exists s m' e', (add32 (S754_finite false m e) (of32 1 (-1)) = S754_zero s \/
    (add32 (S754_finite false m e) (of32 1 (-1)) = S754_finite false m' e' /\ e' <= -1 /\ Z.pos m' <= (2 * (2 ^ bits - 1) + 1) * 2 ^ (-1 - e'))).
Proof.
  intros bits m e B M E V. rewrite half_is. unfold add32. cbn [SFadd]. set (ez := Z.min e (-24)).
  pose proof (shl_align_spec m e ez) as S1. pose proof (shl_align_spec 8388608 (-24) ez) as S2. cbv zeta in S1, S2.
  destruct (shl_align m e ez) as (mx & ex). destruct (shl_align 8388608 (-24) ez) as (my & ey). cbn [fst snd] in *. destruct S1 as (_ & S1). destruct S2 as (_ & S2).
  cbn [cond_Zopp]. change (Z.pos mx + Z.pos my) with (Z.pos (mx + my)). cbn [binary_normalize]. unfold binary_round.
  set (fe := fexp 24 128 (Z.pos (digits2_pos (mx + my)) + ez)).
  pose proof (shl_align_spec (mx + my) ez fe) as S3. cbv zeta in S3. destruct (shl_align (mx + my) ez fe) as (mz & e'). cbn [fst snd] in S3. destruct S3 as (S3 & S4).
  rewrite Pos2Z.inj_add in S4.
  replace (Z.min e ez) with ez in S1 by lia. replace (Z.min (-24) ez) with ez in S2 by lia.
  set (B2 := 2 * (2 ^ bits - 1) + 1).
  assert (P : 256 <= 2 ^ bits <= 65536). { change 256 with (2 ^ 8). change 65536 with (2 ^ 16). split; apply Z.pow_le_mono_r; lia. }
  assert (BN : 0 <= B2) by lia.
  assert (SUM : Z.pos mx + Z.pos my <= B2 * 2 ^ (-1 - ez)).
  { assert (Q1 : Z.pos mx <= (2 ^ bits - 1) * 2 ^ (- ez)).
    { rewrite S1. replace (- ez) with (- e + (e - ez)) by lia. rewrite Z.pow_add_r by lia. rewrite Z.mul_assoc. apply Z.mul_le_mono_nonneg_r; [apply Z.pow_nonneg; lia | exact V]. }
    assert (Q2 : Z.pos my = 2 ^ (-1 - ez)).
    { rewrite S2. change 8388608 with (2 ^ 23). rewrite <- Z.pow_add_r by lia. f_equal. lia. }
    assert (Q3 : 2 ^ (- ez) = 2 * 2 ^ (-1 - ez)). { replace (- ez) with (1 + (-1 - ez)) by lia. rewrite Z.pow_add_r by lia. reflexivity. }
    rewrite Q2. rewrite Q3 in Q1. unfold B2. lia. }
  assert (MZ : Z.pos mz <= B2 * 2 ^ (-1 - e')).
  { rewrite S4. replace (-1 - e') with ((-1 - ez) + (ez - Z.min ez fe)) by lia. rewrite Z.pow_add_r by lia. rewrite Z.mul_assoc.
    apply Z.mul_le_mono_nonneg_r; [apply Z.pow_nonneg; lia | exact SUM]. }
  pose proof (round_aux_le false (Z.pos mz) e' B2 ltac:(lia) ltac:(lia) MZ) as R.
  assert (SM : Z.pos mz < 2 ^ (22 - e')).
  { apply Z.le_lt_trans with (B2 * 2 ^ (-1 - e')); [exact MZ|]. replace (22 - e') with (23 + (-1 - e')) by lia. rewrite Z.pow_add_r by lia.
    apply Z.mul_lt_mono_pos_r; [apply Z.pow_pos_nonneg; lia|]. unfold B2. change (2 ^ 23) with 8388608. lia. }
  specialize (R SM BN). destruct (binary_round_aux 24 128 false (Z.pos mz) e' loc_Exact) as [s|s| |s q eq]; try contradiction.
  - exists s, 1%positive, 0. left. reflexivity.
  - destruct R as (-> & R1 & R2). exists false, q, eq. right. split; [reflexivity|]. split; assumption.
Qed.

(** A clamped float plus a half, truncated, is at most the largest sample. *)
Lemma clamp_half : forall bits k t, 8 <= bits <= 16 -> 2 ^ bits <= 256 ^ k -> short 24 t ->
  exists v, castT k (add32 (fmax (fmin t (of32 (2 ^ bits - 1) 0)) (of32 0 0)) (of32 1 (-1))) = Ok v /\ 0 <= v <= 2 ^ bits - 1.
Proof.
  intros bits k t B K T. destruct (top_is bits B) as (p & TP & PV).
  assert (P : 256 <= 2 ^ bits <= 65536). { change 256 with (2 ^ 8). change 65536 with (2 ^ 16). split; apply Z.pow_le_mono_r; lia. }
  change (of32 0 0) with (S754_zero false).
  set (c := fmax (fmin t (of32 (2 ^ bits - 1) 0)) (S754_zero false)).
  assert (C : (exists s, c = S754_zero s) \/ (exists m e, c = S754_finite false m e /\ Z.pos m < 2 ^ 24 /\ e <= bits - 24 /\ Z.pos m <= (2 ^ bits - 1) * 2 ^ (- e))).
  { assert (TOP : Z.pos p < 2 ^ 24 /\ bits - 24 <= bits - 24 /\ Z.pos p <= (2 ^ bits - 1) * 2 ^ (- (bits - 24))).
    { rewrite PV. replace (- (bits - 24)) with (24 - bits) by lia. split; [|lia]. replace (2 ^ 24) with (2 ^ bits * 2 ^ (24 - bits)) by (rewrite <- Z.pow_add_r by lia; f_equal; lia).
      apply Z.mul_lt_mono_pos_r; [apply Z.pow_pos_nonneg; lia | lia]. }
    unfold c, fmin. destruct (SFltb (of32 (2 ^ bits - 1) 0) t) eqn:L.
    - right. exists p, (bits - 24). rewrite TP. unfold fmax. cbn. split; [reflexivity | exact TOP].
    - rewrite TP in L. destruct t as [s|s| |s m e]; cbn [short] in T.
      + left. exists s. unfold fmax. cbn. reflexivity.
      + destruct s; [|discriminate]. left. exists false. reflexivity.
      + contradiction.
      + destruct s. { left. exists false. reflexivity. }
        right. exists m, e. unfold fmax. cbn. split; [reflexivity|]. split; [exact T|].
        unfold SFltb in L. cbn [SFcompare] in L. destruct (Z.compare_spec (bits - 24) e) as [Q|Q|Q]; [| discriminate |].
        * subst e. split; [lia|]. destruct (Pos.compare_cont Eq p m) eqn:PC; [| discriminate |];
            change (Pos.compare_cont Eq p m) with (Pos.compare p m) in PC.
          -- apply Pos.compare_eq in PC. subst m. apply TOP.
          -- apply Pos.compare_gt_iff in PC. assert (Z.pos m < Z.pos p) by exact PC. destruct TOP as (_ & _ & TOP). lia.
        * split; [lia|]. assert (2 ^ 24 <= (2 ^ bits - 1) * 2 ^ (- e)); [|lia].
          replace (2 ^ 24) with (2 ^ (bits - 1) * 2 ^ (25 - bits)) by (rewrite <- Z.pow_add_r by lia; f_equal; lia).
          assert (2 ^ (25 - bits) <= 2 ^ (- e)) by (apply Z.pow_le_mono_r; lia).
          assert (2 ^ bits = 2 * 2 ^ (bits - 1)). { replace bits with (1 + (bits - 1)) at 1 by lia. rewrite Z.pow_add_r by lia. reflexivity. }
          apply Z.mul_le_mono_nonneg; try lia; apply Z.pow_nonneg; lia. }
  destruct C as [(s & ->)|(m & e & -> & C1 & C2 & C3)].
  - exists 0. split; [|lia]. rewrite half_is. unfold add32. cbn [SFadd]. unfold castT. vm_compute (truncInt64 _). unfold obind.
    cbn [Z.leb Z.compare andb]. destruct (Z.ltb_spec 0 (256 ^ k)); [reflexivity | lia].
  - destruct (add_half bits m e B C1 C2 C3) as (s & m' & e' & [-> | (-> & E1 & E2)]).
    + exists 0. split; [|lia]. unfold castT. cbn [truncInt64 obind Z.leb Z.compare andb]. destruct (Z.ltb_spec 0 (256 ^ k)); [reflexivity | lia].
    + unfold castT. cbn [truncInt64 signed]. unfold mag_trunc. destruct (Z.leb_spec 0 e'); [lia|].
      assert (Q3 : 2 ^ (- e') = 2 * 2 ^ (-1 - e')). { replace (- e') with (1 + (-1 - e')) by lia. rewrite Z.pow_add_r by lia. reflexivity. }
      assert (Q4 : 0 < 2 ^ (-1 - e')) by (apply Z.pow_pos_nonneg; lia).
      set (v := Z.pos m' / 2 ^ (- e')). assert (V : 0 <= v <= 2 ^ bits - 1).
      { unfold v. split; [apply Z.div_pos; lia|]. apply Z.lt_succ_r. apply Z.div_lt_upper_bound; [lia|]. rewrite Q3. nia. }
      assert (I : in_int64b v = true). { apply in_int64b_spec. unfold in_int64, INT64_MIN, INT64_MAX. lia. }
      rewrite I. unfold obind. destruct (Z.leb_spec 0 v); [|lia]. destruct (Z.ltb_spec v (256 ^ k)); [|lia]. cbn [andb]. exists v. split; [reflexivity | exact V].
Qed.

Lemma roundF_good : forall x, isFin x = true -> short 24 x -> isFin (roundF x) = true /\ short 24 (roundF x).
Proof.
  intros [s|s| |s m e] F S; try discriminate; cbn [roundF]; [split; [reflexivity | exact I]|].
  destruct (Z.leb_spec 0 e); [split; assumption|]. cbn [short] in S.
  assert (V : 0 <= mag_away m e < 2 ^ 25).
  { unfold mag_away. destruct (Z.leb_spec 0 e); [lia|]. cbv zeta. set (d := 2 ^ (- e)).
    assert (D : 2 <= d). { unfold d. change 2 with (2 ^ 1) at 1. apply Z.pow_le_mono_r; lia. }
    split; [apply Z.div_pos; lia|]. apply Z.div_lt_upper_bound; [lia|]. change (2 ^ 25) with (2 * 2 ^ 24). nia. }
  destruct (mag_away m e) as [|p|p] eqn:MA; [split; [reflexivity | exact I] | | lia].
  split; [|apply normalize_short; lia].
  apply of32_fin. change (2 ^ 64) with (2 ^ 25 * 2 ^ 39). unfold signed. destruct s; lia.
Qed.

Section Levels.
Variable powf : fl -> fl -> fl.

(** The position of sample [v] between the input limits. *)
Definition levelsAt (a : levels) (v : Z) : fl :=
  div32 (fmax (sub32 (fmin (of32 v 0) (roundF (lv_max_in a))) (roundF (lv_min_in a))) (of32 0 0)) (sub32 (roundF (lv_max_in a)) (roundF (lv_min_in a))).

Definition levelsSum (a : levels) (v : Z) : fl :=
  add32 (mul32 (powf (levelsAt a v) (lv_gamma a)) (sub32 (roundF (lv_max_out a)) (roundF (lv_min_out a)))) (roundF (lv_min_out a)).

Lemma levelsEntry_is : forall k mx a v, levelsEntry powf k mx a v = castT k (add32 (fmax (fmin (levelsSum a v) mx) (of32 0 0)) (of32 1 (-1))).
Proof. reflexivity. Qed.

Lemma mul_nan_or_short : forall x y, SFmul 24 128 x y = S754_nan \/ short 24 (SFmul 24 128 x y).
Proof.
  intros [sx|sx| |sx mx ex] [sy|sy| |sy my ey]; cbn [SFmul]; try (left; reflexivity); right; try exact I. apply round_aux_short; lia.
Qed.

Lemma sum_nan_or_short : forall a v, isFin (lv_min_out a) = true -> short 24 (lv_min_out a) -> levelsSum a v = S754_nan \/ short 24 (levelsSum a v).
Proof.
  intros a v F S. destruct (roundF_good _ F S) as (F1 & S1). unfold levelsSum, add32, mul32.
  destruct (mul_nan_or_short (powf (levelsAt a v) (lv_gamma a)) (sub32 (roundF (lv_max_out a)) (roundF (lv_min_out a)))) as [->|M].
  - left. reflexivity.
  - right. apply add_short; [lia | exact M | exact S1 | exact F1].
Qed.

(** An entry is a legal sample, or undefined when the sum is not a number. *)
Lemma levelsEntry_spec : forall bits k a v, 8 <= bits <= 16 -> 2 ^ bits <= 256 ^ k -> isFin (lv_min_out a) = true -> short 24 (lv_min_out a) ->
  if isNan (levelsSum a v) then levelsEntry powf k (of32 (2 ^ bits - 1) 0) a v = UB
  else exists x, levelsEntry powf k (of32 (2 ^ bits - 1) 0) a v = Ok x /\ 0 <= x <= 2 ^ bits - 1.
Proof.
  intros bits k a v B K F S. rewrite levelsEntry_is. destruct (sum_nan_or_short a v F S) as [E|E].
  - rewrite E. cbn [isNan]. destruct (top_is bits B) as (p & TP & _). rewrite TP. reflexivity.
  - destruct (isNan (levelsSum a v)) eqn:N. { destruct (levelsSum a v); try discriminate. contradiction. }
    apply clamp_half; assumption.
Qed.

(** ** Tables *)

Lemma levelsFill_inv : forall size entry n v t t', levelsFill n v entry size t = Ok t' -> 0 <= v ->
  (forall u, v <= u < v + Z.of_nat n -> exists x, entry u = Ok x /\ t' u = Some x) /\ (forall u, u < v -> t' u = t u).
Proof.
  intros size entry. induction n as [|n IH]; intros v t t' E V; cbn [levelsFill] in E.
  - apply Ok_inj in E. subst t'. split; [intros u U; lia | reflexivity].
  - destruct (entry v) as [x| |] eqn:X; cbn [obind] in E; try discriminate. destruct (v <? size); [|discriminate].
    destruct (IH _ _ _ E ltac:(lia)) as (A & B). split.
    + intros u U. destruct (Z.eq_dec u v) as [->|N].
      * exists x. split; [exact X|]. rewrite B by lia. unfold setT. rewrite Z.eqb_refl. reflexivity.
      * apply A. lia.
    + intros u U. rewrite B by lia. unfold setT. destruct (Z.eqb_spec u v); [lia | reflexivity].
Qed.

Lemma levelsFill_total : forall size entry n v t, 0 <= v -> v + Z.of_nat n <= size ->
  (forall u, v <= u < v + Z.of_nat n -> exists x, entry u = Ok x) -> exists t', levelsFill n v entry size t = Ok t'.
Proof.
  intros size entry. induction n as [|n IH]; intros v t V S H; cbn [levelsFill]; [eexists; reflexivity|].
  destruct (H v ltac:(lia)) as (x & ->). cbn [obind]. destruct (Z.ltb_spec v size); [|lia]. apply IH; [lia | lia|]. intros u U. apply H. lia.
Qed.

(** The arguments of the entries: the reciprocal of gamma. *)
Definition recipGamma (a : levels) : levels := mkLv (lv_min_in a) (lv_max_in a) (lv_min_out a) (lv_max_out a) (div32 (of32 1 0) (lv_gamma a)).

Definition goodLevels (a : levels) : Prop := levelsCheck a = true /\ short 24 (lv_min_out a).
Lemma good_out : forall a, goodLevels a -> isFin (lv_min_out a) = true /\ short 24 (lv_min_out a).
Proof.
  intros a (C & S). split; [|exact S]. unfold levelsCheck in C.
  destruct (isFin (lv_min_in a)), (isFin (lv_max_in a)), (isFin (lv_min_out a)); cbn [negb orb] in C; congruence.
Qed.

Lemma levelsTable_spec : forall f a t, smallInt f -> goodLevels a -> levelsTable powf f a = Ok t ->
  exists T, full (2 ^ f_bits f) t T /\ forall v, 0 <= v < 2 ^ f_bits f -> 0 <= T v <= top (f_bits f) /\
    levelsEntry powf (f_bytes f) (of32 (top (f_bits f)) 0) (recipGamma a) v = Ok (T v).
Proof.
  intros f a t SI G E. destruct (smallInt_facts f SI) as (K & B & P & B1 & P2). unfold levelsTable in E.
  destruct (SFltb _ _); [discriminate|]. cbv zeta in E. fold (recipGamma a) in E.
  assert (X1 : (if f_bytes f =? 1 then of32 255 0 else of32 (2 ^ f_bits f - 1) 0) = of32 (top (f_bits f)) 0).
  { destruct (Z.eqb_spec (f_bytes f) 1) as [Q|]; [rewrite (B1 Q)|]; reflexivity. }
  assert (X2 : (if f_bytes f =? 1 then 256 else 2 ^ f_bits f) = 2 ^ f_bits f).
  { destruct (Z.eqb_spec (f_bytes f) 1) as [Q|]; [rewrite (B1 Q)|]; reflexivity. }
  rewrite X1, X2 in E. destruct (levelsFill_inv _ _ _ _ _ _ E ltac:(lia)) as (A & _). rewrite Z2Nat.id in A by lia.
  exists (fun v => match t v with Some x => x | None => 0 end). split.
  - intros v V. destruct (A v ltac:(lia)) as (x & _ & ->). reflexivity.
  - intros v V. destruct (A v ltac:(lia)) as (x & X & ->). split; [|exact X].
    destruct (good_out a G) as (G1 & G2). pose proof (levelsEntry_spec (f_bits f) (f_bytes f) (recipGamma a) v B P G1 G2) as S.
    fold (top (f_bits f)) in S. destruct (isNan (levelsSum (recipGamma a) v)); [congruence|]. destruct S as (y & Y1 & Y2). rewrite X in Y1. apply Ok_inj in Y1. subst y. exact Y2.
Qed.

(** Creation is defined as long as the output range is finite and powf gives numbers. *)
Lemma levelsTable_total : forall f a, smallInt f -> goodLevels a -> isFin (sub32 (roundF (lv_max_out a)) (roundF (lv_min_out a))) = true ->
  (forall v, 0 <= v < 2 ^ f_bits f -> isFin (powf (levelsAt a v) (div32 (of32 1 0) (lv_gamma a))) = true) -> levelsTable powf f a <> UB.
Proof.
  intros f a SI G FO FP E. destruct (smallInt_facts f SI) as (K & B & P & B1 & P2). unfold levelsTable in E.
  destruct (SFltb _ _); [discriminate|]. cbv zeta in E. fold (recipGamma a) in E.
  assert (X1 : (if f_bytes f =? 1 then of32 255 0 else of32 (2 ^ f_bits f - 1) 0) = of32 (top (f_bits f)) 0).
  { destruct (Z.eqb_spec (f_bytes f) 1) as [Q|]; [rewrite (B1 Q)|]; reflexivity. }
  assert (X2 : (if f_bytes f =? 1 then 256 else 2 ^ f_bits f) = 2 ^ f_bits f).
  { destruct (Z.eqb_spec (f_bytes f) 1) as [Q|]; [rewrite (B1 Q)|]; reflexivity. }
  rewrite X1, X2 in E.
  destruct (levelsFill_total (2 ^ f_bits f) (levelsEntry powf (f_bytes f) (of32 (top (f_bits f)) 0) (recipGamma a)) (Z.to_nat (2 ^ f_bits f)) 0 noTable) as (t & T); [lia | lia | | congruence].
  intros v V. rewrite Z2Nat.id in V by lia. destruct (good_out a G) as (G1 & G2).
  pose proof (levelsEntry_spec (f_bits f) (f_bytes f) (recipGamma a) v B P G1 G2) as S. fold (top (f_bits f)) in S.
  assert (N : isNan (levelsSum (recipGamma a) v) = false).
  { destruct (sum_nan_or_short (recipGamma a) v G1 G2) as [Q|Q]; [|destruct (levelsSum (recipGamma a) v); try contradiction; reflexivity].
    exfalso. unfold levelsSum in Q. cbn [recipGamma lv_max_out lv_min_out lv_gamma] in Q. change (levelsAt (recipGamma a) v) with (levelsAt a v) in Q.
    specialize (FP v ltac:(lia)). destruct (roundF_good _ G1 G2) as (F1 & S1).
    pose proof (mul_short 24 128 ltac:(lia) (powf (levelsAt a v) (div32 (of32 1 0) (lv_gamma a))) _ FP FO) as M.
    pose proof (add_short 24 128 ltac:(lia) _ _ M S1 F1) as AD. unfold add32, mul32 in Q. cbn [recipGamma lv_min_out] in Q, AD. rewrite Q in AD. exact AD. }
  rewrite N in S. destruct S as (x & X & _). exists x. exact X.
Qed.

Lemma levelsTables_inv : forall f process arg n i t, levelsTables powf n i f process arg = Ok t ->
  forall j, i <= j < i + Z.of_nat n -> process j = true -> levelsTable powf f (arg j) = Ok (t j).
Proof.
  intros f process arg. induction n as [|n IH]; intros i t E j J PR; [lia|]. cbn [levelsTables] in E.
  destruct (if process i then levelsTable powf f (arg i) else Ok noTable) as [a| |] eqn:A; cbn [obind] in E; try discriminate.
  destruct (levelsTables powf n (i + 1) f process arg) as [r| |] eqn:R; cbn [obind] in E; try discriminate. apply Ok_inj in E. subst t. cbv beta.
  destruct (Z.eqb_spec j i) as [->|N]; [rewrite PR in A; exact A|]. apply (IH (i + 1) r R); [lia | exact PR].
Qed.

Lemma levelsTables_total : forall f process arg n i, (forall j, i <= j < i + Z.of_nat n -> process j = true -> levelsTable powf f (arg j) <> UB) ->
  levelsTables powf n i f process arg <> UB.
Proof.
  intros f process arg. induction n as [|n IH]; intros i H; [discriminate|]. cbn [levelsTables].
  pose proof (H i ltac:(lia)) as H0. destruct (process i) eqn:PI.
  - destruct (levelsTable powf f (arg i)) as [a| |]; cbn [obind]; [|discriminate|exfalso; apply H0; reflexivity].
    specialize (IH (i + 1) ltac:(intros j J; apply H; lia)). destruct (levelsTables powf n (i + 1) f process arg); cbn [obind]; congruence.
  - cbn [obind]. specialize (IH (i + 1) ltac:(intros j J; apply H; lia)). destruct (levelsTables powf n (i + 1) f process arg); cbn [obind]; congruence.
Qed.

Theorem levels_frame : forall al g planes arg d src, alignment al -> wfFrame al src -> byteFrame src ->
  Forall (fun o => in_int o) planes -> levelsCreate powf (vf_fmt src) planes arg = Ok d ->
  (forall i, 0 <= i < 3 -> short 24 (lv_min_out (arg i))) ->
  exists T r, (forall i v, 0 <= i < f_np (vf_fmt src) -> chosen planes i = true -> 0 <= v <= top (f_bits (vf_fmt src)) ->
      0 <= T i v <= top (f_bits (vf_fmt src)) /\
      levelsEntry powf (f_bytes (vf_fmt src)) (of32 (top (f_bits (vf_fmt src))) 0) (recipGamma (arg i)) v = Ok (T i v)) /\
    levelsGetFrame al g d src = Ok r /\ wfFrame al r /\ vf_fmt r = vf_fmt src /\ vf_w r = vf_w src /\ vf_h r = vf_h src /\
    vf_props r = vf_props src /\ planesMap (fun i a => if chosen planes i then looked (f_bits (vf_fmt src)) (T i) a else a) src r.
Proof.
  intros al g planes arg d src AL WF BY PI E SH. unfold levelsCreate in E. set (f := vf_fmt src) in *. pose proof WF as (V & _). fold f in V.
  destruct (templateInit f planes) as [pr| |] eqn:TI; unfold obind in E at 1; try discriminate.
  destruct (templateInit_inv _ _ _ TI PI) as (ST & BI & PR). assert (SI : smallInt f) by (split; [exact V | split; assumption]).
  destruct (forallb _ _) eqn:FB; cbn [negb] in E; [|discriminate].
  destruct (levelsTables powf (Z.to_nat (f_np f)) 0 f pr arg) as [t| |] eqn:LT; unfold obind in E; try discriminate. apply Ok_inj in E. subst d.
  destruct (smallInt_facts f SI) as (K & B & P & _ & P2). pose proof (valid_np f V) as NP.
  assert (TB : forall i, exists T, 0 <= i < f_np f -> pr i = true -> full (2 ^ f_bits f) (t i) T /\ forall v, 0 <= v < 2 ^ f_bits f -> 0 <= T v <= top (f_bits f) /\
     levelsEntry powf (f_bytes f) (of32 (top (f_bits f)) 0) (recipGamma (arg i)) v = Ok (T v)).
  { intros i. exists (fun v => match t i v with Some x => x | None => 0 end). intros I PRI.
    rewrite forallb_forall in FB. pose proof (FB i ltac:(apply In_zseq; lia)) as C. rewrite PRI in C. cbn [negb orb] in C.
    pose proof (levelsTables_inv _ _ _ _ _ _ LT i ltac:(lia) PRI) as LI.
    destruct (levelsTable_spec f (arg i) (t i) SI (conj C (SH i ltac:(lia))) LI) as (T & T1 & T2).
    split; intros v VV; rewrite (T1 v VV); [reflexivity | apply T2; exact VV]. }
  set (T := fun i v => match t i v with Some x => x | None => 0 end).
  assert (TT : forall i, 0 <= i < f_np f -> pr i = true -> full (2 ^ f_bits f) (t i) (T i) /\ forall v, 0 <= v < 2 ^ f_bits f -> 0 <= T i v <= top (f_bits f) /\
     levelsEntry powf (f_bytes f) (of32 (top (f_bits f)) 0) (recipGamma (arg i)) v = Ok (T i v)).
  { intros i I PRI. destruct (TB i) as (T' & Q). specialize (Q I PRI). destruct Q as (Q1 & Q2).
    split; intros v VV; unfold T; rewrite (Q1 v VV); [reflexivity | apply Q2; exact VV]. }
  clearbody T. clear TB.
  destruct (filterFrame_map al g f (vf_w src) (vf_h src) pr src (fun i q => match nthz (vf_planes src) i with
    | Some p => drawPlane (f_bytes f) (getWidth f (vf_w src) i) (getHeight f (vf_h src) i)
          (fun x y => obind (sampleAt (f_bytes f) p x y) (fun v => lookup (2 ^ f_bits f) (t i) (Z.min v ((2 ^ f_bits f - 1) mod 256 ^ f_bytes f)))) q
    | None => UB end) (fun i => looked (f_bits f) (T i)) (alignment_isAl _ AL) V WF) as (r & R1 & R2 & R3 & R4 & R5 & R6 & R7); auto.
  - intros i p q I PRI N WP SP WQ SQ. rewrite N. rewrite getWidth_planeW, getHeight_planeH by exact V.
    assert (K1 : 1 <= f_bytes f) by (destruct K as [->| ->]; lia). fold f in WP |- *.
    set (w := planeW f (vf_w src) i) in *. set (h := planeH f (vf_h src) i) in *. destruct (TT i I PRI) as (T1 & T2).
    apply (drawPlane_spec (f_bytes f) w h (fun x y => T i (legal (f_bits f) (i_at (imageOf (f_bytes f) p w h) x y)))); [exact K1 | exact WQ |].
    intros x y X Y. rewrite (sampleAt_spec _ p w h) by assumption. unfold obind.
    assert (R := image_range (f_bytes f) p w h x y ltac:(lia) (BY i p N)). set (v := i_at _ x y) in *.
    rewrite (Z.mod_small (2 ^ f_bits f - 1)) by lia. unfold legal, top.
    rewrite (lookup_full _ _ (T i)) by (try exact T1; lia). split; [reflexivity|].
    destruct (T2 (Z.min v (2 ^ f_bits f - 1)) ltac:(lia)) as (T3 & _). unfold top in T3. lia.
  - exists T, r. split.
    { intros i v I C VV. unfold top in VV. apply TT; [exact I | rewrite PR by lia; exact C | lia]. }
    split; [exact R1|]. split; [exact R2|]. split; [exact R3|]. split; [exact R4|]. split; [exact R5|]. split; [exact R6|].
    intros i I. destruct (R7 i I) as (x & y & X & Y & S). exists x, y. split; [exact X|]. split; [exact Y|]. rewrite <- PR by (rewrite R3 in I; lia). exact S.
Qed.

Theorem levels_defined : forall f planes arg, fmt_valid f -> Forall (fun o => in_int o) planes ->
  (forall i, 0 <= i < f_np f -> chosen planes i = true -> short 24 (lv_min_out (arg i)) /\
     isFin (sub32 (roundF (lv_max_out (arg i))) (roundF (lv_min_out (arg i)))) = true /\
     forall v, 0 <= v <= top (f_bits f) -> isFin (powf (levelsAt (arg i) v) (div32 (of32 1 0) (lv_gamma (arg i)))) = true) ->
  levelsCreate powf f planes arg <> UB.
Proof.
  intros f planes arg V PI H. unfold levelsCreate.
  destruct (templateInit f planes) as [pr| |] eqn:TI; unfold obind at 1; [|discriminate|].
  2:{ unfold templateInit in TI. destruct (_ || _); [discriminate|]. destruct (getPlanesArg planes); discriminate. }
  destruct (templateInit_inv _ _ _ TI PI) as (ST & BI & PR). assert (SI : smallInt f) by (split; [exact V | split; assumption]). pose proof (valid_np f V) as NP.
  destruct (forallb _ _) eqn:FB; cbn [negb]; [|discriminate].
  assert (NU : levelsTables powf (Z.to_nat (f_np f)) 0 f pr arg <> UB).
  { apply levelsTables_total. intros j J PRJ. rewrite Z2Nat.id in J by lia. rewrite PR in PRJ by lia. destruct (H j ltac:(lia) PRJ) as (H1 & H2 & H3).
    apply levelsTable_total; auto.
    - split; [|exact H1]. rewrite forallb_forall in FB. specialize (FB j ltac:(apply In_zseq; lia)). rewrite PR in FB by lia. rewrite PRJ in FB. exact FB.
    - intros v VV. apply H3. unfold top. lia. }
  destruct (levelsTables powf (Z.to_nat (f_np f)) 0 f pr arg); unfold obind; congruence.
Qed.
End Levels.
