(** Integer samples: what AudioGain, AudioMix and the generators store. *)
From Coq Require Import ZArith List Bool Lia QArith Qround Qabs Lqa.
From Verif Require Import Common AudioSpec Audio AudioChanSpec AudioChan.
Import ListNotations.
Open Scope Z_scope.

Lemma qround_near : forall q, (Qabs (inject_Z (qround q) - q) <= 1 # 2)%Q.
Proof.
  intros q. unfold qround. destruct (Qle_bool 0 q) eqn:E.
  - pose proof (Qfloor_le (q + (1 # 2))) as H1. pose proof (Qlt_floor (q + (1 # 2))) as H2.
    rewrite inject_Z_plus in H2. change (inject_Z 1) with 1%Q in H2.
    apply Qabs_case; intros; lra.
  - pose proof (Qfloor_le (- q + (1 # 2))) as H1. pose proof (Qlt_floor (- q + (1 # 2))) as H2.
    rewrite inject_Z_plus in H2. change (inject_Z 1) with 1%Q in H2. rewrite inject_Z_opp.
    apply Qabs_case; intros; lra.
Qed.

Lemma inject_le : forall a b, (inject_Z a <= inject_Z b)%Q <-> a <= b.
Proof. intros a b. rewrite <- Zle_Qle. reflexivity. Qed.

Lemma Qle_bool_inject : forall a b, Qle_bool (inject_Z a) (inject_Z b) = (a <=? b).
Proof.
  intros a b. destruct (Z.leb_spec a b) as [H|H].
  - apply Qle_bool_iff. apply inject_le. exact H.
  - apply not_true_iff_false. rewrite Qle_bool_iff, inject_le. lia.
Qed.

Definition zclamp (k lo hi : Z) : Z := if lo <=? k then (if k <=? hi then k else hi) else lo.

Lemma dclamp_int : forall k lo hi, dclamp (Fin (inject_Z k)) lo hi = Fin (inject_Z (zclamp k lo hi)).
Proof.
  intros. unfold dclamp, zclamp. rewrite !Qle_bool_inject.
  destruct (lo <=? k); [|reflexivity]. destruct (k <=? hi); reflexivity.
Qed.

Lemma castInt_int : forall bytes k, - 2 ^ (8 * bytes - 1) <= k <= 2 ^ (8 * bytes - 1) - 1 ->
  forall q, (q == inject_Z k)%Q -> castInt bytes (Fin q) = Ok k.
Proof.
  intros bytes k H q E. unfold castInt.
  assert (T : (if Qle_bool 0 q then Qfloor q else - Qfloor (- q)) = k).
  { destruct (Qle_bool 0 q); rewrite E.
    - apply Qfloor_Z.
    - rewrite <- inject_Z_opp, Qfloor_Z. lia. }
  rewrite T. destruct (Z.leb_spec (- 2 ^ (8 * bytes - 1)) k); [|lia].
  destruct (Z.leb_spec k (2 ^ (8 * bytes - 1) - 1)); [|lia]. reflexivity.
Qed.

Section Q.
Variables bits bytes : Z.
Hypothesis HB : 1 <= bits <= 8 * bytes.

Let step := 2 ^ (8 * bytes - bits).
Let hi := 2 ^ (bits - 1) - 1.
Let lo := - 2 ^ (bits - 1).

Lemma step_pos : 1 <= step.
Proof. unfold step. pose proof (Z.pow_pos_nonneg 2 (8 * bytes - bits)). lia. Qed.

Lemma full_scale : 2 ^ (8 * bytes - 1) = 2 ^ (bits - 1) * step.
Proof. unfold step. rewrite <- Z.pow_add_r by lia. f_equal. lia. Qed.

Lemma half_pos : 1 <= 2 ^ (bits - 1).
Proof. pose proof (Z.pow_pos_nonneg 2 (bits - 1)). lia. Qed.

Lemma zclamp_grid : forall k, onGrid bits bytes (zclamp k lo hi * step).
Proof.
  intros k. exists (zclamp k lo hi). split; [reflexivity|]. pose proof half_pos. unfold zclamp, lo, hi.
  destruct (Z.leb_spec (- 2 ^ (bits - 1)) k); [|lia]. destruct (Z.leb_spec k (2 ^ (bits - 1) - 1)); lia.
Qed.

Lemma grid_range : forall x, onGrid bits bytes x -> - 2 ^ (8 * bytes - 1) <= x <= 2 ^ (8 * bytes - 1) - 1.
Proof.
  intros x (k & -> & H). change (gridStep bits bytes) with step. rewrite full_scale.
  pose proof step_pos. pose proof half_pos. nia.
Qed.

Lemma cast_grid : forall k, castInt bytes (dscale (Fin (inject_Z (zclamp k lo hi))) (inject_Z step)) =
  Ok (zclamp k lo hi * step).
Proof.
  intros k. apply castInt_int; [apply grid_range, zclamp_grid|]. rewrite inject_Z_mult. reflexivity.
Qed.

(** Distances in grid units. *)
Lemma clamp_nearest : forall x0 j, lo <= j <= hi ->
  (Qabs (inject_Z (zclamp (qround x0) lo hi) - x0) <= Qabs (inject_Z j - x0))%Q.
Proof.
  intros x0 j Hj. pose proof (qround_near x0) as N. set (k := qround x0) in *. unfold zclamp.
  assert (N1 : (inject_Z k - x0 <= 1 # 2)%Q /\ (x0 - inject_Z k <= 1 # 2)%Q).
  { revert N. apply Qabs_case; intros; split; lra. }
  destruct (Z.leb_spec lo k) as [L|L]; [destruct (Z.leb_spec k hi) as [H|H]|].
  - destruct (Z.lt_trichotomy j k) as [X|[->|X]].
    + assert (Y : (inject_Z j + 1 <= inject_Z k)%Q).
      { change 1%Q with (inject_Z 1). rewrite <- inject_Z_plus. apply inject_le. lia. }
      revert N. apply Qabs_case; apply Qabs_case; intros; lra.
    + apply Qle_refl.
    + assert (Y : (inject_Z k + 1 <= inject_Z j)%Q).
      { change 1%Q with (inject_Z 1). rewrite <- inject_Z_plus. apply inject_le. lia. }
      revert N. apply Qabs_case; apply Qabs_case; intros; lra.
  - assert (Y : (inject_Z hi + 1 <= inject_Z k)%Q).
    { change 1%Q with (inject_Z 1). rewrite <- inject_Z_plus. apply inject_le. lia. }
    assert (W : (inject_Z j <= inject_Z hi)%Q) by (apply inject_le; lia).
    apply Qabs_case; apply Qabs_case; intros; lra.
  - assert (Y : (inject_Z k + 1 <= inject_Z lo)%Q).
    { change 1%Q with (inject_Z 1). rewrite <- inject_Z_plus. apply inject_le. lia. }
    assert (W : (inject_Z lo <= inject_Z j)%Q) by (apply inject_le; lia).
    apply Qabs_case; apply Qabs_case; intros; lra.
Qed.

Lemma stepQ : (0 < inject_Z step)%Q.
Proof. change 0%Q with (inject_Z 0). rewrite <- Zlt_Qlt. pose proof step_pos. lia. Qed.

Lemma scale_dist : forall k x0 q, (q == x0 * inject_Z step)%Q ->
  (Qabs (inject_Z (k * step) - q) == inject_Z step * Qabs (inject_Z k - x0))%Q.
Proof.
  intros k x0 q E. pose proof stepQ. rewrite inject_Z_mult, E.
  rewrite <- (Qabs_pos (inject_Z step)) at 3 by lra. rewrite <- Qabs_Qmult.
  apply Qabs_wd. ring.
Qed.

Lemma grid_nearest : forall x0 q, (q == x0 * inject_Z step)%Q ->
  nearestOnGrid bits bytes (Fin q) (zclamp (qround x0) lo hi * step).
Proof.
  intros x0 q E. split; [apply zclamp_grid|]. intros y (j & -> & Hj).
  change (gridStep bits bytes) with step.
  rewrite (scale_dist _ x0 q E), (scale_dist _ x0 q E).
  apply Qmult_le_l; [apply stepQ|]. apply clamp_nearest. unfold lo, hi. lia.
Qed.

Lemma clip_flag : forall k, dneq (Fin (inject_Z (zclamp k lo hi))) (Fin (inject_Z k)) = negb ((lo <=? k) && (k <=? hi)).
Proof.
  intros k. unfold dneq. f_equal. unfold zclamp. pose proof half_pos.
  assert (Q : forall a b, Qeq_bool (inject_Z a) (inject_Z b) = (a =? b)).
  { intros a b. destruct (Z.eqb_spec a b) as [->|NE]; [apply Qeq_bool_iff; reflexivity|].
    apply not_true_iff_false. rewrite Qeq_bool_iff. intros X. apply NE. apply (proj1 (inject_Z_injective a b)). exact X. }
  rewrite Q. destruct (Z.leb_spec lo k); cbn [andb]; [destruct (Z.leb_spec k hi)|]; lia.
Qed.

Theorem quantize_correct : forall v, v <> NaN ->
  exists x flag, quantizeStore bits bytes v = Ok (x, flag) /\
    nearestOnGrid bits bytes v x /\ clipMeans bits bytes v x flag.
Proof.
  intros v NN. unfold quantizeStore, quantize. fold step lo hi.
  pose proof stepQ as SQ. pose proof half_pos as HP. pose proof step_pos as SP.
  destruct v as [q| | |]; [| | |congruence].
  - cbn [dscale dround]. set (x0 := (q * / inject_Z step)%Q).
    assert (E : (q == x0 * inject_Z step)%Q) by (unfold x0; field; lra).
    rewrite dclamp_int. rewrite clip_flag. cbn [fst snd]. rewrite cast_grid. cbn [obind].
    eexists; eexists; split; [reflexivity|]. split; [apply grid_nearest; exact E|].
    unfold clipMeans. change (gridStep bits bytes) with step.
    pose proof (qround_near x0) as N. set (k := qround x0) in *.
    unfold zclamp. destruct (Z.leb_spec lo k) as [L|L]; cbn [andb negb]; [destruct (Z.leb_spec k hi) as [H|H]; cbn [negb]|].
    + rewrite (scale_dist _ x0 q E). apply Qmult_le_l; [exact SQ|exact N].
    + rewrite (scale_dist _ x0 q E). apply Qmult_le_l; [exact SQ|].
      assert (Y : (inject_Z hi + 1 <= inject_Z k)%Q).
      { change 1%Q with (inject_Z 1). rewrite <- inject_Z_plus. apply inject_le. lia. }
      revert N. apply Qabs_case; apply Qabs_case; intros; lra.
    + rewrite (scale_dist _ x0 q E). apply Qmult_le_l; [exact SQ|].
      assert (Y : (inject_Z k + 1 <= inject_Z lo)%Q).
      { change 1%Q with (inject_Z 1). rewrite <- inject_Z_plus. apply inject_le. lia. }
      revert N. apply Qabs_case; apply Qabs_case; intros; lra.
  - cbn [dscale dround dclamp dneq fst snd].
    assert (Z1 : zclamp hi lo hi = hi).
    { unfold zclamp. destruct (Z.leb_spec lo hi); [|unfold lo, hi in *; lia]. destruct (Z.leb_spec hi hi); lia. }
    pose proof (cast_grid hi) as C. pose proof (zclamp_grid hi) as G. rewrite Z1 in C, G. cbn [dscale] in C.
    rewrite C. cbn [obind]. exists (hi * step), true. split; [reflexivity|]. split; [|reflexivity].
    split; [exact G|]. intros y (j & -> & Hj). change (gridStep bits bytes) with step. unfold hi; nia.
  - cbn [dscale dround dclamp dneq fst snd].
    assert (Z1 : zclamp lo lo hi = lo).
    { unfold zclamp. destruct (Z.leb_spec lo lo); [|lia]. destruct (Z.leb_spec lo hi); unfold lo, hi in *; lia. }
    pose proof (cast_grid lo) as C. pose proof (zclamp_grid lo) as G. rewrite Z1 in C, G. cbn [dscale] in C.
    rewrite C. cbn [obind]. exists (lo * step), true. split; [reflexivity|]. split; [|reflexivity].
    split; [exact G|]. intros y (j & -> & Hj). change (gridStep bits bytes) with step. unfold lo; nia.
Qed.

(** A gain of one changes nothing and reports nothing. *)
Theorem gain_one : forall s, onGrid bits bytes s -> gainStore bits bytes s (Fin 1) = Ok (s, false).
Proof.
  intros s G. unfold gainStore. cbn [dmul].
  destruct (quantize_correct (Fin (inject_Z s * 1))) as (x & flag & E & (_ & N) & C); [discriminate|].
  rewrite E. specialize (N s G). cbn [clipMeans] in C. pose proof stepQ as SQ. change (gridStep bits bytes) with step in C.
  assert (Z0 : (Qabs (inject_Z s - inject_Z s * 1) == 0)%Q).
  { setoid_replace (inject_Z s - inject_Z s * 1)%Q with 0%Q by ring. reflexivity. }
  rewrite Z0 in N.
  assert (X : (inject_Z x == inject_Z s)%Q).
  { revert N. apply Qabs_case; intros; lra. }
  apply (proj1 (inject_Z_injective x s)) in X. subst x. destruct flag; [|reflexivity]. exfalso. rewrite Z0 in C. lra.
Qed.

Theorem wave_store_correct : forall q,
  exists x, waveStore bits bytes (Fin q) = Ok x /\
    nearestOnGrid bits bytes (Fin (q * inject_Z (2 ^ (8 * bytes - 1)))) x.
Proof.
  intros q. unfold waveStore. cbn [dscale dround]. fold step lo hi.
  set (x0 := (q * inject_Z (2 ^ (bits - 1)))%Q). rewrite dclamp_int, cast_grid.
  eexists; split; [reflexivity|]. apply grid_nearest. unfold x0. rewrite full_scale, inject_Z_mult. ring.
Qed.

Theorem gain_nan : exists s g, onGrid bits bytes s /\ g <> NaN /\ gainStore bits bytes s g = UB.
Proof.
  exists 0, PInf. split; [exists 0; split; [lia|pose proof half_pos; lia]|]. split; [discriminate|]. reflexivity.
Qed.

End Q.
