(** The separable vector kernel reads past the end of its row whenever there is no room. *)
From Coq Require Import ZArith List Lia Bool.
From Verif Require Import Common ImageSpec PlaneMem Spatial SpatialLemmas Pixel PixelLemmas PixelSpec Lut LutLemmas Soft GenericSpec Generic GenericLemmas GenericOps GenericPlanes
  Simd MergeSimdLemmas GenericSimd GenericSimdLanes GenericSimdFloat GenericSimdOps GenericSimdPlanes SquareSimd SquareSimdFloat SquareSimdLanes SquareSimdPlanes ConvSimd ConvSimdLanes ConvSimdScan ConvSimdPlanes.
Import Soft ListNotations.
Open Scope Z_scope.

Lemma obind_Ok : forall {A C} (x : outcome A) (f : A -> outcome C) r, obind x f = Ok r -> exists v, x = Ok v /\ f v = Ok r.
Proof. intros A C [v| |] f r E; try discriminate. exists v. split; [reflexivity | exact E]. Qed.

Lemma forZ_each : forall {S} n (f : Z -> S -> outcome S) s s', forZ n f s = Ok s' -> forall j, 0 <= j < n -> exists t t', f j t = Ok t'.
Proof.
  intros S n f s s' E j J. unfold forZ in E. assert (G : forall m i t, loop m i f t = Ok s' -> i <= j < i + Z.of_nat m -> exists t1 t2, f j t1 = Ok t2).
  { induction m as [|m IH]; intros i t L R; [lia|]. cbn [loop] in L. apply obind_Ok in L. destruct L as (t1 & E1 & L). destruct (Z.eq_dec i j) as [->|NE]; [exists t, t1; exact E1|]. apply (IH (i + 1) t1 L). lia. }
  apply (G (Z.to_nat n) 0 s E). lia.
Qed.

Lemma loadLanes_end : forall k n b o l, loadLanes k b o (Datatypes.S n) = Ok l -> o + Z.of_nat (Datatypes.S n) * k <= b_size b.
Proof.
  intros k. induction n as [|n IH]; intros b o l E; cbn [loadLanes] in E; apply obind_Ok in E; destruct E as (v & E1 & E).
  - unfold loadS in E1. destruct (inside b o k) eqn:I; [|discriminate]. unfold inside in I. apply andb_true_iff in I. destruct I as (_ & I). apply Z.leb_le in I. lia.
  - apply obind_Ok in E. destruct E as (r & E & _). specialize (IH b (o + k) r E). lia.
Qed.

Lemma loadPels_end : forall nb k p row x v, (1 <= nb)%nat -> loadPels nb k p row x = Ok v -> row * p_stride p + (x + 8 * Z.of_nat nb) * k <= b_size (p_buf p).
Proof.
  intros nb k p row x v NB E. unfold loadPels in E. apply obind_Ok in E. destruct E as (l & E & _). destruct (8 * nb)%nat as [|m] eqn:M; [lia|]. apply loadLanes_end in E. lia.
Qed.

Lemma tapsPass_last : forall B g N K load a a', 1 <= N <= 13 -> tapsPass B g N K load a = Ok a' -> exists v, load (loadsOf N - 1) = Ok v.
Proof.
  intros B g N K load a a' R E. unfold tapsPass in E. apply obind_Ok in E. destruct E as (a1 & E1 & E). unfold loadsOf. destruct (Z.leb_spec 13 N).
  - apply obind_Ok in E. destruct E as (x & E & _). exists x. exact E.
  - assert (H2 : 1 <= (N + 1) / 2 <= 6) by (Z.to_euclidean_division_equations; lia).
    destruct (forZ_each _ _ _ _ E1 ((N + 1) / 2 - 1) ltac:(lia)) as (t & t' & F). apply obind_Ok in F. destruct F as (x0 & _ & F). apply obind_Ok in F. destruct F as (x1 & F & _).
    exists x1. rewrite <- F. f_equal. lia.
Qed.

Lemma passes_last : forall B l q first n taps put st st', passes B first (l ++ [q]) n taps put st = Ok st' -> exists f0 st0 st1, pass B f0 true n (taps q) put st0 = Ok st1.
Proof.
  intros B. induction l as [|x l IH]; intros q first n taps put st st' E; [exists first, st, st'; exact E|].
  cbn [app] in E. assert (G : passes B first (x :: l ++ [q]) n taps put st = obind (pass B first false n (taps x) put st) (passes B false (l ++ [q]) n taps put)) by (destruct l; reflexivity).
  rewrite G in E. apply obind_Ok in E. destruct E as (s1 & _ & E). apply (IH q false n taps put s1 st' E).
Qed.

Lemma scanH_end : forall B k g p row x0 base n st st', known B -> 3 <= g_size g <= 25 -> Z.odd (g_size g) = true -> 1 <= n -> scanH B k g p row x0 base n st = Ok st' ->
  row * p_stride p + (x0 + blocksOf B n * pels B - g_size g / 2 + reach g - 1) * k <= b_size (p_buf p).
Proof.
  intros B k g p row x0 base n st st' KB N3 NO N1 E. unfold scanH in E. cbv zeta in E. apply obind_Ok in E. destruct E as (wb & _ & E).
  assert (NE : g_size g = 2 * (g_size g / 2) + 1) by (pose proof (odd_half (g_size g) NO); lia). set (N := g_size g) in *. set (s := N / 2) in *.
  assert (SP : exists l q, splitH N = l ++ [q] /\ 1 <= fst q <= 13 /\ snd q + loadsOf (fst q) = reach g).
  { unfold splitH, reach. fold N. destruct (Z.ltb_spec 13 N) as [L|L].
    - exists [(12, 0)], (N - 12, 12). split; [reflexivity|]. cbn [fst snd]. split; [lia|]. unfold loadsOf. destruct (Z.eqb_spec N 13); [lia|]. cbn [orb]. destruct (Z.eqb_spec N 25) as [Q|Q]; [rewrite Q; reflexivity|].
      destruct (Z.leb_spec 13 (N - 12)); [lia|]. replace (N - 12 + 1) with ((s - 5) * 2) by lia. rewrite Z.div_mul by lia. lia.
    - exists [], (N, 0). split; [reflexivity|]. cbn [fst snd]. split; [lia|]. unfold loadsOf. destruct (Z.eqb_spec N 13) as [Q|Q]; [rewrite Q; reflexivity|]. cbn [orb]. destruct (Z.eqb_spec N 25) as [Q5|Q5]; [lia|].
      destruct (Z.leb_spec 13 N); [lia|]. replace (N + 1) with ((s + 1) * 2) at 1 by lia. rewrite Z.div_mul by lia. lia. }
  destruct SP as (l & q & SE & QR & RE). rewrite SE in E. apply passes_last in E. destruct E as (f0 & st0 & st1 & E). unfold pass in E.
  assert (PP : 8 <= pels B) by (destruct KB as [->|[->| ->]]; vm_compute; discriminate).
  assert (BN : 1 <= blocksOf B n) by (unfold blocksOf; apply Z.div_le_lower_bound; lia).
  destruct (forZ_each _ _ _ _ E (blocksOf B n - 1) ltac:(lia)) as (t & t' & F). cbv zeta in F. apply obind_Ok in F. destruct F as (a & _ & F). apply obind_Ok in F. destruct F as (a' & F & _).
  apply tapsPass_last in F; [|exact QR]. destruct F as (v & F). apply loadPels_end in F; [|destruct KB as [->|[->| ->]]; cbn; lia].
  change (8 * Z.of_nat (be_nb B)) with (pels B) in F. rewrite <- RE. replace (x0 + blocksOf B n * pels B - s + (snd q + loadsOf (fst q)) - 1) with (x0 + (blocksOf B n - 1) * pels B - s + (snd q + (loadsOf (fst q) - 1)) + pels B) by ring. exact F.
Qed.

Theorem convXV_room : forall B k g sc src w h dst m, known B -> smallk k -> legalMatrix (g_matrix g) -> 3 <= g_size g <= 25 -> Z.odd (g_size g) = true -> 0 <= g_maxval g < 256 ^ k ->
  1 <= w < 2 ^ 31 -> 1 <= h < 2 ^ 31 -> wfPlane k src w h -> wfPlane k dst w h -> aligned B src -> aligned B dst -> byteBuf src ->
  g_size g / 2 < w -> g_size g / 2 < h -> (forall z, 0 <= sc_row sc z < 256) -> convXV B k g sc src w h dst = Ok m -> roomX B g w.
Proof.
  intros B k g sc src w h dst m KB K LM N3 NO MV W H WS WD AS AD BB SX SH SC E.
  assert (K1 : 1 <= k) by (destruct K; lia).
  destruct (stride_fits B k g src w h dst KB K N3 MV W H AS AD src WS AS) as (S1 & S2 & S3). pose proof WS as (_ & _ & SW & SZ).
  assert (PC : pels B = 8 \/ pels B = 16 \/ pels B = 32) by (destruct KB as [->|[->| ->]]; cbn; tauto). pose proof (blocks_cover B k g src w h dst KB N3 MV W H AS AD w ltac:(lia)) as BC.
  unfold convXV in E. apply obind_Ok in E. destruct E as (st & E & _).
  (* the first row *)
  unfold forZ in E. destruct (Z.to_nat h) as [|hm] eqn:HM; [lia|]. cbn [loop] in E. apply obind_Ok in E. destruct E as (st1 & E & _). unfold rowX in E.
  assert (FITS : forall e, 0 <= e <= w + 64 -> e * k <= (w + 64) * k) by (intros; apply Z.mul_le_mono_nonneg_r; lia).
  assert (NE : g_size g = 2 * (g_size g / 2) + 1) by (pose proof (odd_half (g_size g) NO); lia).
  set (wR := blocksOf B w * pels B) in *. set (s := g_size g / 2) in *.
  destruct (scanV_ok B k g KB K LM N3 NO MV src (gatherRow g h 0) h (32 + wR) 0 (fun x => vfin B k g (full g (fun c => pel k src (gatherRow g h 0 c) (x - 32)))) (mkB ((w + 64) * k) (sc_row sc)) (fun _ => False)
    (mkB ((w + 64) * k) (sc_row sc)) (tmpOf B (9 <? g_size g) w (sc_tmp sc)) (32 * k) 32 w) as (r1 & t1 & E1 & T1 & (R1 & R2 & R3) & BY).
  - intros NL. unfold tmpOf. cbn [b_size]. replace (9 <? g_size g) with true by lia. fold wR. lia.
  - lia.
  - cbn [b_size]. rewrite Z.add_0_l. apply FITS. lia.
  - lia.
  - destruct PC as [->|[->| ->]]; [replace (32 * k) with (4 * (8 * k)) by ring; apply Z.mod_mul; lia | replace (32 * k) with (2 * (16 * k)) by ring; apply Z.mod_mul; lia | apply Z.mod_same; lia].
  - lia.
  - lia.
  - fold wR. lia.
  - split; [reflexivity|]. split; [intros; contradiction | reflexivity].
  - tauto.
  - exact BB.
  - exact S1.
  - exact S3.
  - exact S2.
  - exact SZ.
  - intros c C. unfold gatherRow. fold s. rewrite tapIndex_spec by lia. apply mirrored_in. lia.
  - intros x X. replace (32 + x - 32) with x by lia. reflexivity.
  - rewrite E1 in E. cbn [obind fst snd] in E. specialize (BY SC).
    destruct (flipLeft_ok k 32 12 r1 K1 BY ltac:(lia)) as (r2 & E2 & S4 & A2 & U2 & B2); [rewrite R1; cbn [b_size]; apply FITS; lia|]. rewrite E2 in E. cbn [obind] in E.
    destruct (flipRight_ok k (32 + w) 12 r2 K1 B2 ltac:(lia)) as (r3 & E3 & S5 & A3 & U3 & B3); [rewrite S4, R1; cbn [b_size]; apply FITS; lia|]. rewrite E3 in E. cbn [obind] in E.
    apply obind_Ok in E. destruct E as (mt & E & _). apply scanH_end in E; [|exact KB | exact N3 | exact NO | lia]. cbn [line p_stride p_buf] in E. rewrite S5, S4, R1 in E. cbn [b_size] in E. rewrite Z.mul_0_l, Z.add_0_l in E.
    fold wR s in E. apply Z.mul_le_mono_pos_r in E; [|lia]. unfold roomX. fold wR s. lia.
Qed.
