(** ShufflePlanes and SplitPlanes. *)
From Coq Require Import String.
From Coq Require Import ZArith List Lia Bool.
From Verif Require Import Common FormatSpec Format FormatLemmas FrameSpec Frame FrameLemmas FrameGeom ImageSpec PlaneMem Spatial
  SpatialLemmas SpatialFrames SpatialStack.
Import ListNotations.
Open Scope Z_scope.

(** The selection the user asked for: plane number [i] of the list, 0 when the list is
    too short; the clip [i], the last one when there are fewer. *)
Definition wantedPlane (planes : list Z) (i : Z) : Z := match nthz planes i with Some p => p | None => 0 end.
Definition wantedClip (clips i : Z) : Z := Z.min i (clips - 1).

Lemma findSub_inv : forall n i s1 s2 r, findSub n i s1 s2 = r -> 0 <= i -> 0 <= r ->
  i <= r < i + Z.of_nat n /\ s1 = s2 * 2 ^ r.
Proof.
  induction n as [|n IH]; intros i s1 s2 r E I R; cbn [findSub] in E; [lia|].
  destruct (Z.eqb_spec (s1 - Z.shiftl s2 i) 0) as [Q|Q].
  - subst r. rewrite Z.shiftl_mul_pow2 in Q by lia. lia.
  - destruct (IH (i + 1) s1 s2 r E) as (A & B); [lia | lia |]. split; [lia | exact B].
Qed.

Lemma findSub_found : forall n i s2 k, 0 < s2 -> 0 <= i -> i <= k < i + Z.of_nat n ->
  findSub n i (s2 * 2 ^ k) s2 = k.
Proof.
  induction n as [|n IH]; intros i s2 k S I K; [lia|]. cbn [findSub]. rewrite Z.shiftl_mul_pow2 by lia.
  destruct (Z.eqb_spec (s2 * 2 ^ k - s2 * 2 ^ i) 0) as [Q|Q].
  - assert (2 ^ k = 2 ^ i) by nia. apply Z.pow_inj_r in H; lia.
  - apply IH; [lia | lia |]. destruct (Z.eq_dec i k); [subst; lia | lia].
Qed.

Lemma queryFmt_inv : forall cf st bits w h f, queryFmt cf st bits w h = Ok f -> f_np f <> 0 ->
  fmt_valid f /\ f_cf f = cf /\ f_st f = st /\ f_bits f = bits /\ f_ssw f = w /\ f_ssh f = h.
Proof.
  intros cf st bits w h f E N. unfold queryFmt in E.
  destruct (queryVideoFormat cf st bits w h) as [[ok g]|] eqn:Q; [|discriminate]. injection E as ->.
  destruct ok.
  - destruct (query_sound _ _ _ _ _ _ Q) as [(_ & ->)|V]; [cbn in N; lia|].
    destruct (query_valid _ _ _ _ _ V) as (g & Eg & Vg & F). rewrite Q in Eg. injection Eg as <-. auto.
  - unfold queryVideoFormat in Q. destruct (cf =? cfUndefined); [congruence|].
    destruct (isValidVideoFormat cf st bits w h); cbn [negb] in Q; [|injection Q as <-; cbn in N; lia].
    destruct (bytesLoop 8 1 bits); congruence.
Qed.

Lemma badPlane_inv : forall v p, fmt_valid (vi_fmt v) -> badPlane v (sat32 p) = false ->
  0 <= p < f_np (vi_fmt v) /\ sat32 p = p.
Proof.
  intros v p V B. unfold badPlane in B. apply orb_false_iff in B. destruct B as (B1 & B2).
  apply Z.ltb_ge in B1. apply andb_false_iff in B2.
  destruct V as (C & _ & _ & _ & N).
  assert (B3 : sat32 p < f_np (vi_fmt v)).
  { destruct B2 as [B2|B2].
    - apply negb_false_iff, Z.eqb_eq in B2. unfold cfUndefined, cfGray, cfRGB, cfYUV in *. lia.
    - apply Z.leb_gt in B2. exact B2. }
  assert (f_np (vi_fmt v) <= 3) by lia.
  unfold sat32 in *. destruct (INT_MAX <? p) eqn:E1; [unfold INT_MAX in *; lia|].
  destruct (p <? INT_MIN) eqn:E2; [unfold INT_MIN in *; lia|]. lia.
Qed.

(** What one output plane is made from. *)
Definition fed (clips : list vinfo) (planes : list Z) (d : shuffleData) (i : Z) : Prop :=
  let c := wantedClip (zlength clips) i in let p := wantedPlane planes i in
  nthz (sd_clip d) i = Some c /\ nthz (sd_plane d) i = Some p /\
  exists v, nthz clips c = Some v /\ 0 <= p < f_np (vi_fmt v) /\
    f_bits (vi_fmt v) = f_bits (vi_fmt (sd_vi d)) /\ f_st (vi_fmt v) = f_st (vi_fmt (sd_vi d)) /\
    planeW (vi_fmt v) (vi_w v) p = planeW (vi_fmt (sd_vi d)) (vi_w (sd_vi d)) i /\
    planeH (vi_fmt v) (vi_h v) p = planeH (vi_fmt (sd_vi d)) (vi_h (sd_vi d)) i.

Lemma familyArg_inv : forall c cf, familyArg c = Some cf -> cf = cfRGB \/ cf = cfYUV \/ cf = cfGray.
Proof.
  intros c cf E. unfold familyArg in E.
  match type of E with (if ?t then _ else _) = _ => destruct t eqn:T end; [|discriminate]. injection E as E. subst cf.
  rewrite !orb_true_iff, !Z.eqb_eq in T. tauto.
Qed.

Lemma half_of : forall s k, 0 <= k -> s * 2 ^ k / 2 ^ k = s.
Proof. intros. apply Z.div_mul. pose proof (pow_ss k). lia. Qed.

Lemma fed_three : forall v0 v1 v2 i1 i2 p0 p1 p2 n cf f d,
  fmt_valid (vi_fmt v0) -> fmt_valid (vi_fmt v1) -> fmt_valid (vi_fmt v2) ->
  (if badPlane v0 (sat32 p0) || badPlane v1 (sat32 p1) || badPlane v2 (sat32 p2) then Err
   else
            let h0 := planeHeight v0 (sat32 p0) in let w0 := planeWidth v0 (sat32 p0) in
            let h1 := planeHeight v1 (sat32 p1) in let w1 := planeWidth v1 (sat32 p1) in
            let h2 := planeHeight v2 (sat32 p2) in let w2 := planeWidth v2 (sat32 p2) in
            if negb (w1 =? w2) || negb (h1 =? h2) then Err
            else
              let sh := findSubSampling h0 h1 in
              let sw := findSubSampling w0 w1 in
              if (sh <? 0) || (sw <? 0) then Err
              else if negb (f_bits (vi_fmt v0) =? f_bits (vi_fmt v1)) || negb (f_st (vi_fmt v0) =? f_st (vi_fmt v1))
                   || negb (f_bits (vi_fmt v0) =? f_bits (vi_fmt v2)) || negb (f_st (vi_fmt v0) =? f_st (vi_fmt v2))
              then Err
              else if (cf =? cfRGB) && (negb (sh =? 0) || negb (sw =? 0)) then Err
              else
                obind (queryFmt cf (f_st (vi_fmt v0)) (f_bits (vi_fmt v0)) sw sh) (fun f =>
                  Ok (mkSD [0; i1; i2] [sat32 p0; sat32 p1; sat32 p2]
                           (mkVI f w0 h0 n)))) = Ok d ->
  f = vi_fmt (sd_vi d) -> f_np f <> 0 -> cf <> cfGray ->
  sd_clip d = [0; i1; i2] /\ sd_plane d = [p0; p1; p2] /\ fmt_valid f /\ f_cf f = cf /\ f_np f = 3 /\
  0 <= p0 < f_np (vi_fmt v0) /\ 0 <= p1 < f_np (vi_fmt v1) /\ 0 <= p2 < f_np (vi_fmt v2) /\
  (f_bits (vi_fmt v0) = f_bits f /\ f_st (vi_fmt v0) = f_st f) /\
  (f_bits (vi_fmt v1) = f_bits f /\ f_st (vi_fmt v1) = f_st f) /\
  (f_bits (vi_fmt v2) = f_bits f /\ f_st (vi_fmt v2) = f_st f) /\
  vi_w (sd_vi d) = planeW (vi_fmt v0) (vi_w v0) p0 /\ vi_h (sd_vi d) = planeH (vi_fmt v0) (vi_h v0) p0 /\
  planeW (vi_fmt v1) (vi_w v1) p1 = vi_w (sd_vi d) / 2 ^ f_ssw f /\
  planeH (vi_fmt v1) (vi_h v1) p1 = vi_h (sd_vi d) / 2 ^ f_ssh f /\
  planeW (vi_fmt v2) (vi_w v2) p2 = vi_w (sd_vi d) / 2 ^ f_ssw f /\
  planeH (vi_fmt v2) (vi_h v2) p2 = vi_h (sd_vi d) / 2 ^ f_ssh f.
Proof.
  intros v0 v1 v2 i1 i2 p0 p1 p2 n cf f d V0 V1 V2 E FE N CG.
  match type of E with (if ?t then _ else _) = _ => destruct t eqn:T end; [discriminate|].
  rewrite !orb_false_iff in T. destruct T as ((B0 & B1) & B2).
  destruct (badPlane_inv v0 p0 V0 B0) as (R0 & S0). destruct (badPlane_inv v1 p1 V1 B1) as (R1 & S1).
  destruct (badPlane_inv v2 p2 V2 B2) as (R2 & S2). rewrite S0, S1, S2 in E. clear B0 B1 B2 S0 S1 S2.
  cbv zeta in E. unfold planeWidth, planeHeight in E.
  rewrite !shiftr_ssw, !shiftr_ssh in E by assumption.
  match type of E with (if ?t then _ else _) = _ => destruct t eqn:T end; [discriminate|].
  rewrite orb_false_iff, !negb_false_iff, !Z.eqb_eq in T. destruct T as (W12 & H12).
  match type of E with (if ?t then _ else _) = _ => destruct t eqn:T end; [discriminate|].
  rewrite orb_false_iff, !Z.ltb_ge in T. destruct T as (SH & SW).
  match type of E with (if ?t then _ else _) = _ => destruct t eqn:T end; [discriminate|].
  rewrite !orb_false_iff, !negb_false_iff, !Z.eqb_eq in T. destruct T as (((T1 & T2) & T3) & T4).
  match type of E with (if ?t then _ else _) = _ => destruct t eqn:T end; [discriminate|]. clear T.
  match type of E with obind ?q _ = _ => destruct q as [g| |] eqn:Q end; cbn [obind] in E; [|discriminate|discriminate].
  injection E as <-. cbn [sd_vi vi_fmt] in FE. subst g.
  destruct (queryFmt_inv _ _ _ _ _ _ Q N) as (V & G1 & G2 & G3 & G4 & G5).
  destruct (findSub_inv _ _ _ _ _ eq_refl (Z.le_refl 0) SH) as (_ & EH).
  destruct (findSub_inv _ _ _ _ _ eq_refl (Z.le_refl 0) SW) as (_ & EW).
  fold (findSubSampling (planeH (vi_fmt v0) (vi_h v0) p0) (planeH (vi_fmt v1) (vi_h v1) p1)) in EH.
  fold (findSubSampling (planeW (vi_fmt v0) (vi_w v0) p0) (planeW (vi_fmt v1) (vi_w v1) p1)) in EW.
  rewrite <- G4 in EW. rewrite <- G5 in EH. rewrite <- G4 in SW. rewrite <- G5 in SH.
  cbn [sd_clip sd_plane sd_vi vi_fmt vi_w vi_h].
  split; [reflexivity|]. split; [reflexivity|]. split; [exact V|]. split; [exact G1|].
  split; [destruct V as (_ & _ & _ & _ & NP); rewrite G1 in NP; lia|].
  split; [exact R0|]. split; [exact R1|]. split; [exact R2|].
  split; [split; congruence|]. split; [split; congruence|]. split; [split; congruence|].
  split; [reflexivity|]. split; [reflexivity|].
  rewrite <- W12, <- H12, EW, EH, !half_of by assumption. auto.
Qed.

Lemma sameBytes : forall f g, fmt_valid f -> fmt_valid g -> f_bits f = f_bits g -> f_bytes f = f_bytes g.
Proof.
  intros f g (_ & _ & S & _) (_ & _ & S' & _) E. rewrite E in S. eapply storage_unique; eauto.
Qed.

Lemma i_cases : forall i, 0 <= i < 3 -> i = 0 \/ i = 1 \/ i = 2.
Proof. lia. Qed.

Lemma shuffle_inv : forall clips planes family d, Forall (fun v => fmt_valid (vi_fmt v)) clips -> clips <> [] ->
  shuffleCreate clips planes family = Ok d -> f_np (vi_fmt (sd_vi d)) <> 0 ->
  fmt_valid (vi_fmt (sd_vi d)) /\ familyArg (sat32 family) = Some (f_cf (vi_fmt (sd_vi d))) /\
  forall i, 0 <= i < f_np (vi_fmt (sd_vi d)) -> fed clips planes d i.
Proof.
  intros clips planes family d V NE E N. unfold shuffleCreate in E.
  destruct (familyArg (sat32 family)) as [cf|] eqn:FA; [|discriminate].
  pose proof (familyArg_inv _ _ FA) as CF.
  destruct (_ <? zlength clips) eqn:LC in E; [discriminate|].
  destruct (_ <? zlength planes) eqn:LP in E; [discriminate|].
  destruct (forallb constantFormat clips); cbn [negb] in E; [|discriminate].
  destruct clips as [|v0 rest]; [congruence|]. inversion V as [|? ? V0 VR]; subst.
  destruct (Z.eqb_spec cf cfGray) as [->|CG].
  - assert (rest = []) as ->. { destruct rest; [reflexivity|]. apply Z.ltb_ge in LC. rewrite !zlength_cons in LC.
      pose proof (zlength_nonneg _ rest). lia. }
    assert (P : exists p0, wantedPlane planes 0 = p0 /\ pick3 (map sat32 planes) = (sat32 p0, 0, 0)).
    { destruct planes as [|a [|b r]].
      - exists 0. split; reflexivity.
      - exists a. split; reflexivity.
      - apply Z.ltb_ge in LP. rewrite !zlength_cons in LP. pose proof (zlength_nonneg _ r). lia. }
    destruct P as (p0 & WP & PE). rewrite PE in E.
    destruct (badPlane v0 (sat32 p0)) eqn:B; [discriminate|].
    destruct (badPlane_inv v0 p0 V0 B) as (R & S). rewrite S in E.
    match type of E with obind ?q _ = _ => destruct q as [f| |] eqn:Q end; cbn [obind] in E; [|discriminate|discriminate].
    injection E as <-. cbn [sd_vi vi_fmt] in *.
    destruct (queryFmt_inv _ _ _ _ _ _ Q N) as (Vf & G1 & G2 & G3 & G4 & G5).
    split; [exact Vf|]. split; [congruence|].
    intros i I. assert (i = 0). { destruct Vf as (_ & _ & _ & _ & NP). rewrite G1 in NP. lia. } subst i.
    unfold fed. cbn [sd_clip sd_plane sd_vi vi_fmt vi_w vi_h]. rewrite WP.
    split; [reflexivity|]. split; [reflexivity|]. exists v0. split; [reflexivity|].
    unfold planeWidth, planeHeight. rewrite shiftr_ssw, shiftr_ssh by exact V0.
    split; [exact R|]. split; [congruence|]. split; [congruence|]. split; reflexivity.
  - assert (C3 : zlength (v0 :: rest) <= 3) by (apply Z.ltb_ge in LC; exact LC).
    assert (P3 : zlength planes <= 3) by (apply Z.ltb_ge in LP; exact LP).
    assert (P : pick3 (map sat32 planes) = (sat32 (wantedPlane planes 0), sat32 (wantedPlane planes 1), sat32 (wantedPlane planes 2))).
    { destruct planes as [|a [|b [|c r]]]; try reflexivity. }
    rewrite P in E. clear P.
    set (p0 := wantedPlane planes 0) in *. set (p1 := wantedPlane planes 1) in *. set (p2 := wantedPlane planes 2) in *.
    destruct rest as [|v1 [|v2 r]].
    + pose proof (fed_three v0 v0 v0 _ _ p0 p1 p2 _ cf _ d V0 V0 V0 E eq_refl N CG) as
        (D1 & D2 & Vf & G1 & G2 & R0 & R1 & R2 & (X0 & Y0) & (X1 & Y1) & (X2 & Y2) & Q0 & Q1 & Q2 & Q3 & Q4 & Q5).
      split; [exact Vf|]. split; [congruence|]. rewrite G2. intros i I. unfold fed.
      destruct (i_cases i I) as [->|[->| ->]]; (split; [rewrite D1; reflexivity|]); (split; [rewrite D2; reflexivity|]);
        exists v0; (split; [reflexivity|]); fold p0 p1 p2; auto 10.
    + inversion VR as [|? ? V1 _]; subst.
      pose proof (fed_three v0 v1 v1 _ _ p0 p1 p2 _ cf _ d V0 V1 V1 E eq_refl N CG) as
        (D1 & D2 & Vf & G1 & G2 & R0 & R1 & R2 & (X0 & Y0) & (X1 & Y1) & (X2 & Y2) & Q0 & Q1 & Q2 & Q3 & Q4 & Q5).
      split; [exact Vf|]. split; [congruence|]. rewrite G2. intros i I. unfold fed.
      destruct (i_cases i I) as [->|[->| ->]]; (split; [rewrite D1; reflexivity|]); (split; [rewrite D2; reflexivity|]);
        eexists; (split; [reflexivity|]); fold p0 p1 p2; auto 10.
    + inversion VR as [|? ? V1 VR']; subst. inversion VR' as [|? ? V2 _]; subst.
      assert (r = []) as ->. { destruct r; [reflexivity|]. rewrite !zlength_cons in C3. pose proof (zlength_nonneg _ r). lia. }
      pose proof (fed_three v0 v1 v2 _ _ p0 p1 p2 _ cf _ d V0 V1 V2 E eq_refl N CG) as
        (D1 & D2 & Vf & G1 & G2 & R0 & R1 & R2 & (X0 & Y0) & (X1 & Y1) & (X2 & Y2) & Q0 & Q1 & Q2 & Q3 & Q4 & Q5).
      split; [exact Vf|]. split; [congruence|]. rewrite G2. intros i I. unfold fed.
      destruct (i_cases i I) as [->|[->| ->]]; (split; [rewrite D1; reflexivity|]); (split; [rewrite D2; reflexivity|]);
        eexists; (split; [reflexivity|]); fold p0 p1 p2; auto 10.
Qed.

(** ** Frames *)

Lemma Forall2_nthz : forall (A B : Type) (R : A -> B -> Prop) la lb i b, Forall2 R la lb -> nthz lb i = Some b ->
  exists a, nthz la i = Some a /\ R a b.
Proof.
  intros A B R la lb i b F. revert i. induction F as [|x y la lb Rxy F IH]; intros i E.
  - apply nthz_In in E. destruct E.
  - destruct (Z.eq_dec i 0) as [->|N].
    + rewrite nthz_cons_0 in *. injection E as <-. exists x. auto.
    + pose proof (nthz_range _ _ _ _ E) as R'. rewrite nthz_cons_S in * by lia. apply IH. exact E.
Qed.

Lemma takePlane_spec : forall al f w h frames c p i fr, isAl al -> fmt_valid f ->
  nthz frames c = Some fr -> wfFrame al fr -> 0 <= p < f_np (vf_fmt fr) -> f_bytes (vf_fmt fr) = f_bytes f ->
  planeW (vf_fmt fr) (vf_w fr) p = planeW f w i -> planeH (vf_fmt fr) (vf_h fr) p = planeH f h i ->
  exists q, takePlane f w h frames c p i = Ok q /\ nthz (vf_planes fr) p = Some q /\
    p_stride q = strideOf al f w i /\ b_size (p_buf q) = p_stride q * planeH f h i.
Proof.
  intros al f w h frames c p i fr A V E W P B PW PH. unfold takePlane. rewrite E.
  destruct (Z.ltb_spec p 0); [lia|]. destruct (Z.leb_spec (f_np (vf_fmt fr)) p); [lia|]. cbn [orb].
  pose proof W as (VF & _ & _ & _ & PS).
  rewrite !getHeight_planeH, !getWidth_planeW by assumption. rewrite PW, PH, !Z.eqb_refl. cbn [negb orb].
  destruct (wf_plane al fr p A W P) as (q & Eq & _). rewrite Eq. exists q. split; [reflexivity|]. split; [reflexivity|].
  destruct (PS p q Eq) as (S1 & S2). split; [|rewrite <- PH; exact S2].
  rewrite S1. unfold strideOf. rewrite PW, B. reflexivity.
Qed.

Lemma shuffle_frame : forall al clips planes family d frames ps, isAl al ->
  Forall (fun v => fmt_valid (vi_fmt v)) clips -> clips <> [] ->
  shuffleCreate clips planes family = Ok d -> f_np (vi_fmt (sd_vi d)) <> 0 ->
  1 <= vi_w (sd_vi d) -> 1 <= vi_h (sd_vi d) ->
  Forall2 matches frames clips -> Forall (wfFrame al) frames ->
  exists r, shuffleGetFrame d frames ps = Ok r /\ wfFrame al r /\ matches r (sd_vi d) /\ vf_props r = vf_props ps /\
    forall i, 0 <= i < f_np (vf_fmt r) -> exists fr,
      nthz frames (wantedClip (zlength clips) i) = Some fr /\
      planeImg r i = planeImg fr (wantedPlane planes i) /\ planeImg r i <> None.
Proof.
  intros al clips planes family d frames ps A V NE C N W1 H1 M WF.
  destruct (shuffle_inv clips planes family d V NE C N) as (Vf & FA & FED).
  assert (ONE : forall i, 0 <= i < f_np (vi_fmt (sd_vi d)) ->
    exists q fr, takePlane (vi_fmt (sd_vi d)) (vi_w (sd_vi d)) (vi_h (sd_vi d)) frames
        (wantedClip (zlength clips) i) (wantedPlane planes i) i = Ok q /\
      p_stride q = strideOf al (vi_fmt (sd_vi d)) (vi_w (sd_vi d)) i /\
      b_size (p_buf q) = p_stride q * planeH (vi_fmt (sd_vi d)) (vi_h (sd_vi d)) i /\
      nthz frames (wantedClip (zlength clips) i) = Some fr /\ wantedPlane planes i < f_np (vf_fmt fr) /\
      planeImg fr (wantedPlane planes i) = Some (imageOf (f_bytes (vi_fmt (sd_vi d))) q
         (planeW (vi_fmt (sd_vi d)) (vi_w (sd_vi d)) i) (planeH (vi_fmt (sd_vi d)) (vi_h (sd_vi d)) i)) /\
      getWidth (vf_fmt fr) (vf_w fr) (wantedPlane planes i) = planeW (vi_fmt (sd_vi d)) (vi_w (sd_vi d)) i /\
      getHeight (vf_fmt fr) (vf_h fr) (wantedPlane planes i) = planeH (vi_fmt (sd_vi d)) (vi_h (sd_vi d)) i).
  { intros i I. destruct (FED i I) as (F1 & F2 & v & Ev & R & X & Y & PW & PH).
    destruct (Forall2_nthz _ _ _ _ _ _ _ M Ev) as (fr & Efr & M1 & M2 & M3).
    pose proof (nthz_In _ _ _ _ Efr) as INfr. rewrite Forall_forall in WF. pose proof (WF fr INfr) as Wfr.
    pose proof Wfr as (Vfr & _).
    assert (BB : f_bytes (vf_fmt fr) = f_bytes (vi_fmt (sd_vi d))) by (apply sameBytes; [exact Vfr|exact Vf|congruence]).
    rewrite <- M1 in PW, PH, R. rewrite <- M2 in PW. rewrite <- M3 in PH.
    destruct (takePlane_spec al (vi_fmt (sd_vi d)) (vi_w (sd_vi d)) (vi_h (sd_vi d)) frames
        (wantedClip (zlength clips) i) (wantedPlane planes i) i fr A Vf Efr Wfr R BB PW PH) as (q & Eq & Pq & Sq & Bq).
    exists q, fr. split; [exact Eq|]. split; [exact Sq|]. split; [exact Bq|]. split; [exact Efr|]. split; [lia|].
    split; [unfold planeImg; rewrite Pq, BB, PW, PH; reflexivity|].
    rewrite getWidth_planeW, getHeight_planeH by exact Vfr. auto. }
  unfold shuffleGetFrame. pose proof (valid_np _ Vf) as NP.
  destruct (Z.eqb_spec (f_cf (vi_fmt (sd_vi d))) cfGray) as [G|G]; cbn [negb].
  - assert (N1 : f_np (vi_fmt (sd_vi d)) = 1) by (destruct Vf as (_ & _ & _ & _ & Q); lia).
    assert (CL1 : wantedClip (zlength clips) 0 = 0).
    { unfold wantedClip. destruct clips as [|c0 cr]; [congruence|]. rewrite zlength_cons. pose proof (zlength_nonneg _ cr). lia. }
    destruct (ONE 0 ltac:(lia)) as (q & fr & Eq & Sq & Bq & Efr & Lp & Iq & GW & GH). rewrite CL1 in *.
    destruct (FED 0 ltac:(lia)) as (_ & F2 & _).
    destruct frames as [|src fs]; [discriminate|]. rewrite nthz_cons_0 in Efr. injection Efr as ->.
    destruct (sd_plane d) as [|p0 pr] eqn:EP; [discriminate|]. rewrite nthz_cons_0 in F2. injection F2 as ->.
    destruct (Z.leb_spec (f_np (vf_fmt fr)) (wantedPlane planes 0)); [lia|].
    rewrite GW, GH. cbv zeta. change (planeW (vi_fmt (sd_vi d)) (vi_w (sd_vi d)) 0) with (vi_w (sd_vi d)).
    change (planeH (vi_fmt (sd_vi d)) (vi_h (sd_vi d)) 0) with (vi_h (sd_vi d)).
    rewrite Eq. cbn [obind]. eexists. split; [reflexivity|].
    split; [|split; [split; [reflexivity|split; reflexivity]|split; [reflexivity|]]].
    + split; [exact Vf|]. cbn [vf_fmt vf_w vf_h vf_planes]. split; [lia|]. split; [lia|]. split; [rewrite N1; reflexivity|].
      intros i p Ip. assert (i = 0). { apply nthz_range in Ip. rewrite zlength_cons in Ip. change (zlength (@nil plane)) with 0 in Ip. lia. }
      subst i. rewrite nthz_cons_0 in Ip. injection Ip as <-. auto.
    + cbn [vf_fmt]. intros i I. assert (i = 0) as -> by lia. exists fr. rewrite CL1, nthz_cons_0.
      split; [reflexivity|]. rewrite Iq. unfold planeImg. cbn [vf_fmt vf_w vf_h vf_planes]. rewrite nthz_cons_0.
      split; [reflexivity|discriminate].
  - destruct (eachPlane_spec (fun i q =>
        p_stride q = strideOf al (vi_fmt (sd_vi d)) (vi_w (sd_vi d)) i /\
        b_size (p_buf q) = p_stride q * planeH (vi_fmt (sd_vi d)) (vi_h (sd_vi d)) i /\
        exists fr, nthz frames (wantedClip (zlength clips) i) = Some fr /\
        planeImg fr (wantedPlane planes i) = Some (imageOf (f_bytes (vi_fmt (sd_vi d))) q
         (planeW (vi_fmt (sd_vi d)) (vi_w (sd_vi d)) i) (planeH (vi_fmt (sd_vi d)) (vi_h (sd_vi d)) i)))
      (fun i =>
             match nthz (sd_clip d) i, nthz (sd_plane d) i with
             | Some c, Some p => takePlane (vi_fmt (sd_vi d)) (vi_w (sd_vi d)) (vi_h (sd_vi d)) frames c p i
             | _, _ => UB
             end) (Z.to_nat (f_np (vi_fmt (sd_vi d)))) 0) as (l & E & L & P).
    + intros i I. destruct (FED i ltac:(lia)) as (F1 & F2 & _). rewrite F1, F2.
      destruct (ONE i ltac:(lia)) as (q & fr & Eq & Sq & Bq & Efr & Lp & Iq & _).
      exists q. split; [exact Eq|]. split; [exact Sq|]. split; [exact Bq|]. exists fr. auto.
    + rewrite E. cbn [obind]. eexists. split; [reflexivity|].
      assert (ZL : zlength l = f_np (vi_fmt (sd_vi d))) by (unfold zlength; lia).
      split; [|split; [split; [reflexivity|split; reflexivity]|split; [reflexivity|]]].
      * split; [exact Vf|]. cbn [vf_fmt vf_w vf_h vf_planes]. split; [lia|]. split; [lia|]. split; [exact ZL|].
        intros i p Ip. destruct (P i p Ip) as (P1 & P2 & _). rewrite Z.add_0_l in *. auto.
      * cbn [vf_fmt]. intros i I. destruct (nthz l i) as [q|] eqn:Ei; [|apply nthz_None_iff in Ei; lia].
        destruct (P i q Ei) as (P1 & P2 & fr & Efr & Iq). rewrite Z.add_0_l in *.
        exists fr. split; [exact Efr|]. rewrite Iq. unfold planeImg. cbn [vf_fmt vf_w vf_h vf_planes]. rewrite Ei.
        split; [reflexivity|discriminate].
Qed.

(** ** SplitPlanes, and putting the planes together again *)

Lemma fold_each : forall (A B : Type) (g : A -> outcome B) l r,
  fold_right (fun i acc => obind (g i) (fun d => obind acc (fun l => Ok (d :: l)))) (Ok []) l = Ok r ->
  Forall2 (fun i d => g i = Ok d) l r.
Proof.
  intros A B g l. induction l as [|a l IH]; intros r E; cbn [fold_right] in E.
  - injection E as <-. constructor.
  - destruct (g a) as [d| |] eqn:Ga; cbn [obind] in E; try discriminate.
    match type of E with obind ?q _ = _ => destruct q as [t| |] eqn:Q end; cbn [obind] in E; try discriminate.
    injection E as <-. constructor; [exact Ga|]. apply IH. reflexivity.
Qed.

Lemma grayFmt : forall f, fmt_valid f -> exists g, queryFmt cfGray (f_st f) (f_bits f) 0 0 = Ok g /\ fmt_valid g /\
  f_cf g = cfGray /\ f_st g = f_st f /\ f_bits g = f_bits f /\ f_np g = 1.
Proof.
  intros f V. destruct (query_valid cfGray (f_st f) (f_bits f) 0 0) as (g & E & Vg & A & B & C & D & F).
  { destruct V as (_ & V2 & _). split; [auto|]. split; [exact V2|]. right. unfold cfGray, cfYUV. lia. }
  exists g. unfold queryFmt. rewrite E. split; [reflexivity|]. split; [exact Vg|]. split; [exact A|].
  split; [exact B|]. split; [exact C|]. destruct Vg as (_ & _ & _ & _ & N). lia.
Qed.

Lemma constantFormat_intro : forall v, fmt_valid (vi_fmt v) -> 1 <= vi_w v -> 1 <= vi_h v -> constantFormat v = true.
Proof.
  intros v (C & _) W H. unfold constantFormat. rewrite !andb_true_iff, !Z.ltb_lt, negb_true_iff, Z.eqb_neq.
  unfold cfGray, cfRGB, cfYUV, cfUndefined in *. lia.
Qed.

(** The clip of a single plane. *)
Definition grayVI (g : vfmt) (vi : vinfo) (i : Z) : vinfo :=
  mkVI g (planeW (vi_fmt vi) (vi_w vi) i) (planeH (vi_fmt vi) (vi_h vi) i) (vi_n vi).

Lemma extract_create : forall vi i, fmt_valid (vi_fmt vi) -> 1 <= vi_w vi -> 1 <= vi_h vi -> 0 <= i < f_np (vi_fmt vi) ->
  exists g, shuffleCreate [vi] [i] cfGray = Ok (mkSD [0] [i] (grayVI g vi i)) /\
    queryFmt cfGray (f_st (vi_fmt vi)) (f_bits (vi_fmt vi)) 0 0 = Ok g.
Proof.
  intros vi i V W H I. destruct (grayFmt _ V) as (g & Q & Vg & G1 & G2 & G3 & G4). exists g.
  split; [|exact Q]. pose proof (valid_np _ V). unfold shuffleCreate.
  change (familyArg (sat32 cfGray)) with (Some cfGray). rewrite Z.eqb_refl.
  change (1 <? zlength [vi]) with false. change (1 <? zlength [i]) with false.
  cbn [forallb]. rewrite constantFormat_intro by assumption. cbn [andb negb map pick3].
  assert (S : sat32 i = i). { unfold sat32. destruct (Z.ltb_spec INT_MAX i); [unfold INT_MAX in *; lia|].
    destruct (Z.ltb_spec i INT_MIN); [unfold INT_MIN in *; lia|]. reflexivity. }
  rewrite S. unfold badPlane. destruct (Z.ltb_spec i 0); [lia|]. destruct (Z.leb_spec (f_np (vi_fmt vi)) i); [lia|].
  rewrite andb_false_r. cbn [orb]. rewrite Q. cbn [obind]. unfold grayVI, planeWidth, planeHeight.
  rewrite shiftr_ssw, shiftr_ssh by exact V. reflexivity.
Qed.

Lemma split_create : forall vi, fmt_valid (vi_fmt vi) -> 1 <= vi_w vi -> 1 <= vi_h vi -> f_np (vi_fmt vi) <> 1 ->
  exists g, queryFmt cfGray (f_st (vi_fmt vi)) (f_bits (vi_fmt vi)) 0 0 = Ok g /\
    splitCreate vi = Ok (Some [mkSD [0] [0] (grayVI g vi 0); mkSD [0] [1] (grayVI g vi 1); mkSD [0] [2] (grayVI g vi 2)]).
Proof.
  intros vi V W H N.
  assert (N3 : f_np (vi_fmt vi) = 3) by (destruct V as (_ & _ & _ & _ & Q); lia).
  destruct (extract_create vi 0 V W H ltac:(lia)) as (g & E0 & Q).
  destruct (extract_create vi 1 V W H ltac:(lia)) as (g1 & E1 & Q1). rewrite Q in Q1. injection Q1 as <-.
  destruct (extract_create vi 2 V W H ltac:(lia)) as (g2 & E2 & Q2). rewrite Q in Q2. injection Q2 as <-.
  exists g. split; [exact Q|]. unfold splitCreate.
  destruct (Z.eqb_spec (f_cf (vi_fmt vi)) cfUndefined) as [C|_].
  { destruct V as (VC & _). unfold cfGray, cfRGB, cfYUV, cfUndefined in *. lia. }
  rewrite N3. change (3 =? 1) with false. cbn iota. change (zseq 3) with [0; 1; 2]. cbn [fold_right].
  rewrite E0, E1, E2. reflexivity.
Qed.

Lemma ss_zero : forall f, fmt_valid f -> f_cf f <> cfYUV -> f_ssw f = 0 /\ f_ssh f = 0.
Proof. intros f (_ & _ & _ & S & _) N. lia. Qed.

Lemma join_create : forall vi g, fmt_valid (vi_fmt vi) -> 1 <= vi_w vi -> 1 <= vi_h vi -> f_np (vi_fmt vi) <> 1 ->
  (2 ^ f_ssw (vi_fmt vi) | vi_w vi) -> (2 ^ f_ssh (vi_fmt vi) | vi_h vi) ->
  queryFmt cfGray (f_st (vi_fmt vi)) (f_bits (vi_fmt vi)) 0 0 = Ok g ->
  shuffleCreate [grayVI g vi 0; grayVI g vi 1; grayVI g vi 2] [0; 0; 0] (f_cf (vi_fmt vi)) =
  Ok (mkSD [0; 1; 2] [0; 0; 0] (mkVI (vi_fmt vi) (vi_w vi) (vi_h vi) (vi_n vi))).
Proof.
  intros vi g V W H N DW DH Q. destruct (grayFmt _ V) as (g' & Q' & Vg & G1 & G2 & G3 & G4).
  rewrite Q in Q'. injection Q' as <-.
  assert (CF : f_cf (vi_fmt vi) = cfRGB \/ f_cf (vi_fmt vi) = cfYUV).
  { destruct V as (VC & _ & _ & _ & NP). lia. }
  pose proof (valid_ss _ V) as SS.
  unfold shuffleCreate.
  assert (FA : familyArg (sat32 (f_cf (vi_fmt vi))) = Some (f_cf (vi_fmt vi))) by (destruct CF as [-> | ->]; reflexivity).
  rewrite FA. destruct (Z.eqb_spec (f_cf (vi_fmt vi)) cfGray) as [C|_].
  { unfold cfGray, cfRGB, cfYUV in *. lia. }
  change (3 <? zlength [grayVI g vi 0; grayVI g vi 1; grayVI g vi 2]) with false. change (3 <? zlength [0; 0; 0]) with false.
  cbn iota.
  pose proof (pow_ss (f_ssw (vi_fmt vi)) ltac:(lia)) as PW. pose proof (pow_ss (f_ssh (vi_fmt vi)) ltac:(lia)) as PH.
  assert (W1 : 1 <= vi_w vi / 2 ^ f_ssw (vi_fmt vi)).
  { destruct DW as (k & K). rewrite K, Z.div_mul by lia. nia. }
  assert (H1 : 1 <= vi_h vi / 2 ^ f_ssh (vi_fmt vi)).
  { destruct DH as (k & K). rewrite K, Z.div_mul by lia. nia. }
  cbn [forallb]. rewrite !constantFormat_intro by (try exact Vg; cbn; assumption).
  cbn [andb negb map pick3]. change (sat32 0) with 0.
  unfold badPlane, planeHeight, planeWidth, grayVI. cbn [vi_fmt vi_w vi_h vi_n]. rewrite G4. change (0 <? 0) with false. change (1 <=? 0) with false.
  rewrite !andb_false_r. cbn [orb].
  rewrite !shiftr_ssw, !shiftr_ssh by exact Vg.
  unfold planeW, planeH. change (0 =? 0) with true. change (1 =? 0) with false. change (2 =? 0) with false. cbv iota.
  rewrite !Z.eqb_refl. cbn [negb orb].
  assert (SW : findSubSampling (vi_w vi) (vi_w vi / 2 ^ f_ssw (vi_fmt vi)) = f_ssw (vi_fmt vi)).
  { unfold findSubSampling. replace (vi_w vi) with (vi_w vi / 2 ^ f_ssw (vi_fmt vi) * 2 ^ f_ssw (vi_fmt vi)) at 1.
    - apply findSub_found; lia.
    - destruct DW as (k & K). rewrite K, Z.div_mul by lia. reflexivity. }
  assert (SH : findSubSampling (vi_h vi) (vi_h vi / 2 ^ f_ssh (vi_fmt vi)) = f_ssh (vi_fmt vi)).
  { unfold findSubSampling. replace (vi_h vi) with (vi_h vi / 2 ^ f_ssh (vi_fmt vi) * 2 ^ f_ssh (vi_fmt vi)) at 1.
    - apply findSub_found; lia.
    - destruct DH as (k & K). rewrite K, Z.div_mul by lia. reflexivity. }
  rewrite SW, SH. destruct (Z.ltb_spec (f_ssh (vi_fmt vi)) 0); [lia|]. destruct (Z.ltb_spec (f_ssw (vi_fmt vi)) 0); [lia|].
  cbn [orb].
  assert (NR : (f_cf (vi_fmt vi) =? cfRGB) && (negb (f_ssh (vi_fmt vi) =? 0) || negb (f_ssw (vi_fmt vi) =? 0)) = false).
  { destruct (Z.eqb_spec (f_cf (vi_fmt vi)) cfRGB) as [C|]; [|reflexivity].
    destruct (ss_zero _ V) as (-> & ->); [rewrite C; unfold cfRGB, cfYUV; lia|]. reflexivity. }
  rewrite NR, G2, G3. unfold queryFmt. rewrite query_exact by exact V. cbn [obind]. do 3 f_equal. lia.
Qed.

(** Splitting a clip and joining the parts restores every frame. *)
Lemma split_join : forall al vi, isAl al -> fmt_valid (vi_fmt vi) -> 1 <= vi_w vi -> 1 <= vi_h vi ->
  f_np (vi_fmt vi) <> 1 -> (2 ^ f_ssw (vi_fmt vi) | vi_w vi) -> (2 ^ f_ssh (vi_fmt vi) | vi_h vi) ->
  exists ds dj, splitCreate vi = Ok (Some ds) /\
    shuffleCreate (map sd_vi ds) [0; 0; 0] (f_cf (vi_fmt vi)) = Ok dj /\ sd_vi dj = vi /\
    forall src, wfFrame al src -> matches src vi -> exists parts r,
      Forall2 (fun d part => shuffleGetFrame d [src] src = Ok part) ds parts /\
      (forall first, nthz parts 0 = Some first -> shuffleGetFrame dj parts first = Ok r) /\
      sameFrame src r /\ vf_props r = vf_props src /\ wfFrame al r.
Proof.
  intros al vi A V W H N DW DH.
  destruct (split_create vi V W H N) as (g & Q & SC). destruct (grayFmt _ V) as (g' & Q' & Vg & G1 & G2 & G3 & G4).
  rewrite Q in Q'. injection Q' as <-.
  pose proof (join_create vi g V W H N DW DH Q) as JC.
  eexists. eexists. split; [exact SC|]. split; [exact JC|].
  split; [destruct vi; reflexivity|].
  pose proof (valid_ss _ V) as SS.
  pose proof (pow_ss (f_ssw (vi_fmt vi)) ltac:(lia)) as PW. pose proof (pow_ss (f_ssh (vi_fmt vi)) ltac:(lia)) as PH.
  assert (W1 : 1 <= vi_w vi / 2 ^ f_ssw (vi_fmt vi)).
  { destruct DW as (k & K). rewrite K, Z.div_mul by lia. nia. }
  assert (H1 : 1 <= vi_h vi / 2 ^ f_ssh (vi_fmt vi)).
  { destruct DH as (k & K). rewrite K, Z.div_mul by lia. nia. }
  assert (PD : forall i, 1 <= planeW (vi_fmt vi) (vi_w vi) i /\ 1 <= planeH (vi_fmt vi) (vi_h vi) i).
  { intros i. unfold planeW, planeH. destruct (i =? 0); lia. }
  intros src WS M.
  assert (N3 : f_np (vi_fmt vi) = 3) by (destruct V as (_ & _ & _ & _ & NN); lia).
  assert (GET : forall i, 0 <= i < 3 -> exists part, shuffleGetFrame (mkSD [0] [i] (grayVI g vi i)) [src] src = Ok part /\
      wfFrame al part /\ matches part (grayVI g vi i) /\ vf_props part = vf_props src /\ planeImg part 0 = planeImg src i).
  { intros i I. destruct (extract_create vi i V W H ltac:(lia)) as (g1 & E1 & Q1). rewrite Q in Q1. injection Q1 as <-.
    destruct (shuffle_frame al [vi] [i] cfGray _ [src] src A ltac:(auto) ltac:(discriminate) E1) as (part & P1 & P2 & P3 & P4 & P5).
    - cbn. lia.
    - cbn [sd_vi grayVI vi_w]. apply PD.
    - cbn [sd_vi grayVI vi_h]. apply PD.
    - constructor; [exact M | constructor].
    - constructor; [exact WS | constructor].
    - exists part. split; [exact P1|]. split; [exact P2|]. split; [exact P3|]. split; [exact P4|].
      destruct P3 as (P3 & _). destruct (P5 0) as (fr & F1 & F2 & _).
      + rewrite P3. cbn [sd_vi grayVI vi_fmt]. lia.
      + cbn in F1. injection F1 as <-. exact F2. }
  destruct (GET 0 ltac:(lia)) as (f0 & E0 & X0 & M0 & Y0 & Z0).
  destruct (GET 1 ltac:(lia)) as (f1 & E1 & X1 & M1 & Y1 & Z1).
  destruct (GET 2 ltac:(lia)) as (f2 & E2 & X2 & M2 & Y2 & Z2).
  assert (VV : Forall (fun v => fmt_valid (vi_fmt v)) [grayVI g vi 0; grayVI g vi 1; grayVI g vi 2])
    by (constructor; [exact Vg|]; constructor; [exact Vg|]; constructor; [exact Vg | constructor]).
  destruct (shuffle_frame al [grayVI g vi 0; grayVI g vi 1; grayVI g vi 2] [0; 0; 0] (f_cf (vi_fmt vi)) _ [f0; f1; f2] f0 A
     VV ltac:(discriminate) JC) as (r & R1 & R2 & R3 & R4 & R5).
  - cbn. lia.
  - exact W.
  - exact H.
  - constructor; [exact M0|]. constructor; [exact M1|]. constructor; [exact M2|]. constructor.
  - constructor; [exact X0|]. constructor; [exact X1|]. constructor; [exact X2|]. constructor.
  - exists [f0; f1; f2], r. split; [repeat (constructor; [assumption|]); constructor|].
    split; [intros first F; rewrite nthz_cons_0 in F; injection F as <-; exact R1|].
    destruct R3 as (R3 & R3' & R3''). cbn [sd_vi vi_fmt vi_w vi_h] in *. destruct M as (MF & MW & MH).
    split; [|split; [congruence | exact R2]].
    split; [congruence|]. split; [congruence|]. split; [congruence|].
    intros i I. destruct (R5 i I) as (fr & F1 & F2 & F3).
    assert (I3 : 0 <= i < 3) by (rewrite R3 in I; lia).
    assert (EQ : planeImg r i = planeImg src i).
    { destruct (i_cases i I3) as [->|[->| ->]]; cbn in F1; injection F1 as <-; rewrite F2; assumption. }
    destruct (planeImg r i) as [b|] eqn:EB; [|congruence]. exists b, b. split; [congruence|]. split; [reflexivity|]. apply same_refl.
Qed.

(** ** The missing check: a ratio of 32 *)

Definition bigGray : vinfo := mkVI (mkV cfGray stInteger 8 1 0 0 1) 64 64 1.
Definition smallGray : vinfo := mkVI (mkV cfGray stInteger 8 1 0 0 1) 2 2 1.

Lemma ratio32 : exists d, shuffleCreate [bigGray; smallGray; smallGray] [0; 0; 0] cfYUV = Ok d /\
  f_cf (vi_fmt (sd_vi d)) = cfUndefined /\ f_np (vi_fmt (sd_vi d)) = 0.
Proof. eexists. split; [reflexivity|]. split; reflexivity. Qed.
