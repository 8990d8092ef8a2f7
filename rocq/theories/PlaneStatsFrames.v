(** PlaneStats: the quotients and whole frames. *)
From Coq Require Import String.
From Coq Require Import ZArith List Lia Bool SpecFloat QArith Qabs Qpower Lqa.
From Verif Require Import Common FormatSpec Format Frame FrameSpec FrameGeom FrameFacts ImageSpec PlaneMem Spatial SpatialLemmas SpatialStack Pixel PixelLemmas Soft SoftLemmas SoftBounds SoftErr Generic LutLemmas LutFrames.
From Verif Require Import Average AverageNear PlaneStatsSpec PlaneStats PlaneStatsLemmas PlaneStatsVec PlaneStatsWord PlaneStatsAvx PlaneStatsAvxWord.
Import ListNotations.
Open Scope Z_scope.

(** ** Quotients *)
Lemma digits63 : forall p, Z.pos p <= 2 ^ 63 -> 1 <= Zdigits2 (Z.pos p) <= 64.
Proof.
  intros p H. pose proof (digits2_low p) as L. change (Z.pos (digits2_pos p)) with (Zdigits2 (Z.pos p)) in L.
  assert (1 <= Zdigits2 (Z.pos p)) by (cbn; lia). split; [assumption|].
  destruct (Z_le_gt_dec (Zdigits2 (Z.pos p)) 64); [assumption|].
  assert (2 ^ 64 <= 2 ^ (Zdigits2 (Z.pos p) - 1)) by (apply Z.pow_le_mono_r; lia). lia.
Qed.

Lemma quot64_rel : forall a p, Z.pos a <= 2 ^ 63 -> Z.pos p <= 2 ^ 63 ->
  exists q e, div64 (of64 (Z.pos a) 0) (of64 (Z.pos p) 0) = S754_finite false q e /\
    near (1 - (1 # 2251799813685248)) (1 + (1 # 2251799813685248)) (inject_Z (Z.pos a) / inject_Z (Z.pos p)) (mg q e).
Proof.
  intros a p A P. pose proof (digits63 a A) as DA. pose proof (digits63 p P) as DP.
  destruct (round_rel 53 1024 ltac:(lia) false a 0) as (qa & ea & RA & DQA & EA & NA); [unfold SpecFloat.emin; lia | lia|].
  destruct (round_rel 53 1024 ltac:(lia) false p 0) as (qp & ep & RP & DQP & EP & NP); [unfold SpecFloat.emin; lia | lia|].
  unfold div64, of64. cbn [binary_normalize]. rewrite RA, RP.
  destruct (div_rel 53 1024 ltac:(lia) false qa ea false qp ep) as (q & e & RD & _ & _ & ND); [exact DQA | exact DQP | unfold SpecFloat.emin; lia | lia|].
  rewrite RD. cbn [xorb]. exists q, e. split; [reflexivity|].
  set (u := tw (-53)) in *. assert (U : (u == 1 # 9007199254740992)%Q) by reflexivity.
  unfold ulo, uhi in *. fold u in NA, NP, ND.
  assert (L0 : (0 < 1 - u)%Q) by (rewrite U; reflexivity). assert (H0 : (0 < 1 + u)%Q) by (rewrite U; reflexivity).
  assert (AP : (0 < inject_Z (Z.pos a))%Q) by (apply (inj_lt 0); lia). assert (PP : (0 < inject_Z (Z.pos p))%Q) by (apply (inj_lt 0); lia).
  pose proof (near_eq _ _ _ _ _ _ (mg_int a) (Qeq_refl _) NA) as NA'. pose proof (near_eq _ _ _ _ _ _ (mg_int p) (Qeq_refl _) NP) as NP'.
  pose proof (near_inv _ _ _ _ L0 PP NP') as NI.
  assert (IP : (0 < / inject_Z (Z.pos p))%Q) by (apply Qinv_lt_0_compat; exact PP).
  assert (IU : (0 < / (1 + u))%Q) by (apply Qinv_lt_0_compat; exact H0).
  pose proof (near_mul _ _ _ _ _ _ _ _ (Qlt_le_weak _ _ L0) (Qlt_le_weak _ _ IU) (Qlt_le_weak _ _ AP) (Qlt_le_weak _ _ IP) NA' NI) as N2.
  assert (DE : (mg qa ea * / mg qp ep == mg qa ea / mg qp ep)%Q) by (unfold Qdiv; ring).
  pose proof (near_eq _ _ _ _ _ _ (Qeq_refl _) DE N2) as N2'.
  pose proof (near_trans _ _ _ _ _ _ _ (Qlt_le_weak _ _ L0) (Qlt_le_weak _ _ H0) N2' ND) as N3.
  apply near_eq with (a' := (inject_Z (Z.pos a) / inject_Z (Z.pos p))%Q) (x' := mg q e) in N3; [|unfold Qdiv; ring|reflexivity].
  eapply near_le; [| | |exact N3].
  - apply Qlt_le_weak, Qmult_lt_0_compat; assumption.
  - rewrite U. vm_compute. discriminate.
  - rewrite U. vm_compute. discriminate.
Qed.

Theorem statsQuotient_spec : forall w h bits acc, 0 < w -> 0 < h -> w * h <= 2 ^ 46 -> 1 <= bits <= 16 -> 0 <= acc <= w * h * (2 ^ bits - 1) ->
  exists x, statsQuotient w h bits acc = Ok x /\ quotient64 acc (w * h * (2 ^ bits - 1)) x.
Proof.
  intros w h bits acc W H WH B AC. unfold statsQuotient.
  assert (P1 : 2 ^ 1 <= 2 ^ bits <= 2 ^ 16) by (split; apply Z.pow_le_mono_r; lia). change (2 ^ 1) with 2 in P1. change (2 ^ 16) with 65536 in P1.
  change (2 ^ 46) with 70368744177664 in WH. assert (N1 : 1 <= w * h) by nia.
  set (d := w * h * (2 ^ bits - 1)) in *. assert (D : 1 <= d <= 2 ^ 62) by (change (2 ^ 62) with 4611686018427387904; unfold d; nia).
  unfold chk64. rewrite (proj2 (in_int64b_spec (w * h))) by (unfold in_int64, INT64_MIN, INT64_MAX; lia). cbn [obind]. fold d.
  rewrite (proj2 (in_int64b_spec d)) by (unfold in_int64, INT64_MIN, INT64_MAX; lia). cbn [obind].
  eexists. split; [reflexivity|]. clearbody d. unfold quotient64. destruct d as [|p|p]; try lia. destruct (Z.eqb_spec acc 0) as [->|NZ].
  - change (of64 0 0) with (S754_zero false). unfold of64, div64. cbn [binary_normalize].
    destruct (round_rel 53 1024 ltac:(lia) false p 0) as (qp & ep & -> & _); [|pose proof (digits63 p ltac:(lia)); lia | reflexivity].
    pose proof (digits63 p ltac:(lia)). unfold SpecFloat.emin. lia.
  - destruct acc as [|a|a]; try lia. destruct (quot64_rel a p ltac:(lia) ltac:(lia)) as (q & e & E & N1' & N2'). exists q, e. split; [exact E|].
    change (inject_Z (Z.pos q) * Qpower (2 # 1) e)%Q with (mg q e). generalize dependent (mg q e). intros x N2 N3.
    assert (PP : (0 < inject_Z (Z.pos p))%Q) by (apply (inj_lt 0); lia). assert (AP : (0 < inject_Z (Z.pos a))%Q) by (apply (inj_lt 0); lia).
    set (P := inject_Z (Z.pos p)) in *. set (A := inject_Z (Z.pos a)) in *. clearbody P A.
    assert (EQ : (A / P * P == A)%Q) by (field; intros C; rewrite C in PP; discriminate).
    assert (N2'' : ((1 - (1 # 2251799813685248)) * (A / P) * P <= x * P)%Q) by (apply Qmult_le_compat_r; [exact N2 | apply Qlt_le_weak; exact PP]).
    assert (N3'' : (x * P <= (1 + (1 # 2251799813685248)) * (A / P) * P)%Q) by (apply Qmult_le_compat_r; [exact N3 | apply Qlt_le_weak; exact PP]).
    rewrite <- Qmult_assoc, EQ in N2''. rewrite <- Qmult_assoc, EQ in N3''.
    change (inject_Z (2 ^ 51)) with (2251799813685248 # 1)%Q.
    apply Qabs_case; intros; lra.
Qed.

(** ** Planes *)
Section Planes.
Variable al : Z.
Hypothesis AL : alignment al.

Lemma plane_reads : forall k p w h, 1 <= k -> wfPlane k p w h -> (forall a, 0 <= b_data (p_buf p) a < 256) -> reads k w h p (i_at (imageOf k p w h)).
Proof. intros k p w h K WP B x y X Y. split; [apply loadS_at; auto | apply image_range; [lia | exact B]]. Qed.
Lemma plane_readsV : forall k n p w h, 1 <= k -> 0 < n -> (n * k | 32) -> (al | p_stride p) -> wfPlane k p w h -> (forall a, 0 <= b_data (p_buf p) a < 256) ->
  readsV k n w h p (i_at (imageOf k p w h)).
Proof.
  intros k n p w h K N D AS WP B. split; [|intros; apply image_range; [lia | exact B]].
  intros j y J Y. unfold loadV. destruct (loadGroup k p w h n j y) as (l & E & L & R & AT); try lia; auto.
  - pose proof WP as (W0 & _ & S & _). assert (A32 : (32 | al)) by (destruct AL as [-> | ->]; [exists 1 | exists 2]; reflexivity).
    apply group_fits; auto; try lia. eapply Z.divide_trans; [exact D | eapply Z.divide_trans; eassumption].
  - rewrite E. f_equal. apply nthz_ext; [rewrite zlength_map, zlength_zseq; lia|].
    intros i I. rewrite AT by lia. rewrite nthz_map, nthz_zseq by lia. reflexivity.
Qed.
End Planes.

Lemma planeStats_spec : forall al lv k w h p o, alignment al -> 1 <= k <= 2 -> 0 < w -> 0 < h -> w * h <= 2 ^ 46 ->
  wfPlane k p w h -> (al | p_stride p) -> (forall a, 0 <= b_data (p_buf p) a < 256) ->
  match o with Some q => wfPlane k q w h /\ (al | p_stride q) /\ forall a, 0 <= b_data (p_buf q) a < 256 | None => True end ->
  exists s, planeStats lv k w h p o = Ok s /\
    statsOf w h (i_at (imageOf k p w h)) (option_map (fun q => i_at (imageOf k q w h)) o) s.
Proof.
  intros al lv k w h p o AL K W H WH WP AP BP O. unfold planeStats.
  assert (RV : forall n, 0 < n -> (n * k | 32) -> readsV k n w h p (i_at (imageOf k p w h)) /\ readsVO k n w h o (option_map (fun q => i_at (imageOf k q w h)) o)).
  { intros n N D. split; [apply (plane_readsV al); auto; lia|]. destruct o as [q|]; cbn [option_map readsVO]; [|exact Logic.I]. destruct O as (O1 & O2 & O3). apply (plane_readsV al); auto; lia. }
  destruct lv.
  - apply statsC_spec; auto; [apply plane_reads; auto; lia|].
    destruct o as [q|]; cbn [option_map readsO]; [|exact Logic.I]. destruct O as (O1 & O2 & O3). apply plane_reads; auto; lia.
  - destruct (Z.eqb_spec k 1) as [->|NK].
    + apply byteSSE2_spec; auto; apply (RV 16); try lia; exists 2; reflexivity.
    + assert (k = 2) by lia. subst k. apply wordSSE2_spec; auto; apply (RV 8); try lia; exists 2; reflexivity.
  - destruct (Z.eqb_spec k 1) as [->|NK].
    + apply byteAVX2_spec; auto; apply (RV 32); try lia; exists 1; reflexivity.
    + assert (k = 2) by lia. subst k. apply wordAVX2_spec; auto; apply (RV 16); try lia; exists 1; reflexivity.
Qed.

(** ** Whole frames *)
Definition given2 (al : Z) (vi : vinfo) (d : statsData) (src2 : option vframe) : Prop :=
  match src2 with Some s => ps_two d = true /\ wfFrame al s /\ matches s vi /\ byteFrame s | None => ps_two d = false end.
Theorem stats_frame : forall al lv d src src2 vi i, alignment al -> i = ps_plane d -> 0 <= i < f_np (vi_fmt vi) -> f_bits (vi_fmt vi) <= 16 ->
  wfFrame al src -> matches src vi -> byteFrame src -> given2 al vi d src2 ->
  (forall x y a, planeImg src i = Some a -> i_at a x y < 2 ^ f_bits (vi_fmt vi)) ->
  (forall s x y a, src2 = Some s -> planeImg s i = Some a -> i_at a x y < 2 ^ f_bits (vi_fmt vi)) ->
  1 <= planeW (vi_fmt vi) (vi_w vi) i -> 1 <= planeH (vi_fmt vi) (vi_h vi) i -> planeW (vi_fmt vi) (vi_w vi) i * planeH (vi_fmt vi) (vi_h vi) i <= 2 ^ 46 ->
  exists a r mi ma, planeImg src i = Some a /\ statsGetFrame lv d src src2 = Ok r /\
    least (samplesOf a) mi /\ greatest (samplesOf a) ma /\
    sf_frame r = mkVF (vf_fmt src) (vf_w src) (vf_h src) (vf_planes src) (setProp (ps_prop d ++ "Max") ma (setProp (ps_prop d ++ "Min") mi (vf_props src))) /\
    quotient64 (sumOf (samplesOf a)) (i_w a * i_h a * (2 ^ f_bits (vi_fmt vi) - 1)) (sf_avg r) /\
    match src2 with
    | Some s => exists b x, planeImg s i = Some b /\ sf_diff r = Some x /\ quotient64 (distance a b) (i_w a * i_h a * (2 ^ f_bits (vi_fmt vi) - 1)) x
    | None => sf_diff r = None
    end.
Proof.
  intros al lv d src src2 vi i AL -> I B16 WF (M1 & M2 & M3) BF G2 LEG LEG2 PW PH WH. pose proof (alignment_isAl _ AL) as A.
  set (i := ps_plane d) in *. pose proof WF as (V & W1 & H1 & LP & PL). rewrite M1 in V. set (f := vi_fmt vi) in *.
  destruct (wf_plane al src i A WF ltac:(rewrite M1; exact I)) as (p & NP & WP). rewrite M1, M2, M3 in WP.
  assert (PI : planeImg src i = Some (imageOf (f_bytes f) p (planeW f (vi_w vi) i) (planeH f (vi_h vi) i))) by (unfold planeImg; rewrite NP, M1, M2, M3; reflexivity).
  set (w := planeW f (vi_w vi) i) in *. set (h := planeH f (vi_h vi) i) in *. set (a := imageOf (f_bytes f) p w h) in *.
  destruct (bytes_of _ V) as (BY1 & BY2 & BY3 & BY4). specialize (BY3 B16). assert (K : 1 <= f_bytes f <= 2) by lia.
  assert (AP : (al | p_stride p)) by (destruct (PL i p NP) as (-> & _); apply stride_div; [exact A | rewrite M1; exact V | lia]).
  assert (SEC : exists o, option_map (fun s => nthz (vf_planes s) i) src2 = option_map (@Some plane) o /\
     match o with Some q => wfPlane (f_bytes f) q w h /\ (al | p_stride q) /\ forall a, 0 <= b_data (p_buf q) a < 256 | None => True end /\
     match src2, o with Some s, Some q => planeImg s i = Some (imageOf (f_bytes f) q w h) | None, None => True | _, _ => False end).
  { unfold given2 in G2. destruct src2 as [s|]; [|exists None; repeat split].
    destruct G2 as (_ & WF2 & (S1 & S2 & S3) & BF2). destruct (wf_plane al s i A WF2 ltac:(rewrite S1; exact I)) as (q & NQ & WQ). rewrite S1, S2, S3 in WQ.
    exists (Some q). cbn [option_map]. rewrite NQ. split; [reflexivity|]. split.
    - split; [exact WQ|]. split; [|exact (BF2 i q NQ)]. destruct WF2 as (V2 & X1 & X2 & _ & PL2). destruct (PL2 i q NQ) as (-> & _). apply stride_div; auto; lia.
    - unfold planeImg. rewrite NQ, S1, S2, S3. reflexivity. }
  destruct SEC as (o & OE & OW & OP).
  destruct (planeStats_spec al lv (f_bytes f) w h p o AL K ltac:(lia) ltac:(lia) WH WP AP (BF i p NP) OW) as (s & ES & (S1 & S2 & S3 & S4)). cbv zeta in *.
  fold a in S1, S2, S3, S4. change (overImage w h (i_at a)) with (samplesOf a) in *.
  assert (T1 : 1 <= 2 ^ f_bits f) by (pose proof (Z.pow_pos_nonneg 2 (f_bits f)); lia).
  assert (LN : forall (c : Z -> Z -> Z), zlength (overImage w h c) = w * h) by (intros; apply over_length; lia).
  assert (AC : 0 <= sumOf (samplesOf a) <= w * h * (2 ^ f_bits f - 1)).
  { assert (LS : zlength (samplesOf a) = w * h) by (exact (LN (i_at a))). pose proof (sum_bound (2 ^ f_bits f - 1) (samplesOf a)) as SB. rewrite LS in SB.
    rewrite Z.mul_comm. apply SB. intros v VI. apply over_in in VI. destruct VI as (x & y & _ & _ & ->).
    pose proof (image_range (f_bytes f) p w h x y ltac:(lia) (BF i p NP)). specialize (LEG x y a PI). fold a in H. lia. }
  destruct (statsQuotient_spec w h (f_bits f) _ ltac:(lia) ltac:(lia) WH ltac:(lia) AC) as (avg & EA & QA).
  assert (GW : getWidth f (vi_w vi) i = w) by (apply getWidth_planeW; lia || exact V). assert (GH : getHeight f (vi_h vi) i = h) by (apply getHeight_planeH; lia || exact V).
  exists a. unfold statsGetFrame. fold i. rewrite M1, M2, M3. fold f. rewrite GW, GH, NP, OE.
  unfold given2 in G2. destruct src2 as [t|]; destruct o as [q|]; try contradiction; cbn [option_map] in *.
  - rewrite ES. cbn [obind]. rewrite S3, EA. cbn [obind]. destruct G2 as (G2 & WF2 & MT & BF2). rewrite G2.
    set (b := imageOf (f_bytes f) q w h) in *. change (st_diff s = distance a b) in S4.
    assert (AD : 0 <= distance a b <= w * h * (2 ^ f_bits f - 1)).
    { unfold distance. change (i_w a) with w. change (i_h a) with h. pose proof (sum_bound (2 ^ f_bits f - 1) (overImage w h (fun x y => Z.abs (i_at a x y - i_at b x y)))) as SB. rewrite LN in SB.
      rewrite Z.mul_comm. apply SB. intros v VI. apply over_in in VI. destruct VI as (x & y & _ & _ & ->).
      pose proof (image_range (f_bytes f) p w h x y ltac:(lia) (BF i p NP)) as RA. pose proof (image_range (f_bytes f) q w h x y ltac:(lia) (proj2 (proj2 OW))) as RB.
      pose proof (LEG x y a PI). pose proof (LEG2 t x y b eq_refl OP). fold a in RA. fold b in RB. lia. }
    destruct (statsQuotient_spec w h (f_bits f) _ ltac:(lia) ltac:(lia) WH ltac:(lia) AD) as (dif & ED & QD).
    rewrite S4, ED. cbn [obind]. eexists _, (st_min s), (st_max s). split; [exact PI|]. split; [reflexivity|]. cbn [sf_frame sf_avg sf_diff].
    split; [exact S1|]. split; [exact S2|]. split; [reflexivity|]. split; [exact QA|]. exists b, dif. split; [exact OP|]. split; [reflexivity | exact QD].
  - rewrite ES. cbn [obind]. rewrite S3, EA. cbn [obind]. rewrite G2. cbn [obind]. eexists _, (st_min s), (st_max s). split; [exact PI|]. split; [reflexivity|]. cbn [sf_frame sf_avg sf_diff].
    split; [exact S1|]. split; [exact S2|]. split; [reflexivity|]. split; [exact QA | reflexivity].
Qed.

Theorem create_stats : forall vi plane vi2 prop d, statsCreate vi plane vi2 prop = Ok d ->
  0 <= ps_plane d < f_np (vi_fmt vi) /\ f_st (vi_fmt vi) = stInteger /\ f_bits (vi_fmt vi) <= 16 /\ (ps_two d = true <-> vi2 <> None) /\
  (forall v, vi2 = Some v -> sameInfo vi v = true) /\ ps_plane d = match plane with Some v => sat32 v | None => 0 end /\
  ps_prop d = match prop with Some s => s | None => "PlaneStats"%string end.
Proof.
  intros vi plane vi2 prop d E. unfold statsCreate in E. destruct (_ || _ || _) eqn:C0 in E; [discriminate|].
  apply orb_false_elim in C0. destruct C0 as (C0 & C3). apply orb_false_elim in C0. destruct C0 as (C1 & C2). apply negb_false_iff, Z.eqb_eq in C3. rewrite C3 in C2. cbn [andb] in C2.
  change (stInteger =? stInteger) with true in C2. cbn [andb] in C2. apply Z.ltb_ge in C2.
  destruct ((_ <? 0) || _) eqn:C4 in E; [discriminate|]. apply orb_false_elim in C4. destruct C4 as (C4 & C5). apply Z.ltb_ge in C4. apply Z.leb_gt in C5.
  destruct (match vi2 with Some _ => _ | None => _ end) eqn:C6 in E; [discriminate|]. apply Ok_inj in E. subst d. cbn [ps_plane ps_two ps_prop].
  split; [lia|]. split; [exact C3|]. split; [exact C2|]. split; [destruct vi2; split; intros; congruence|]. split; [|split; reflexivity].
  intros v ->. apply orb_false_elim in C6. destruct C6 as (C6 & _). apply negb_false_iff in C6. exact C6.
Qed.
