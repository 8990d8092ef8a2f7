(** BoxBlur on whole frames: the planes are taken apart, blurred and put together again. *)
From Coq Require Import ZArith List Lia Bool.
From Verif Require Import Common FormatSpec Format FormatLemmas Frame FrameSpec FrameGeom FrameFacts ImageSpec PlaneMem Spatial SpatialLemmas SpatialFrames SpatialStack SpatialShuffle SpatialFacts.
From Verif Require Import Transpose TransposeLemmas TransposeFrames PixelSpec Pixel PixelLemmas Lut LutLemmas LutFrames LutFacts GenericSpec GenericOps GenericFacts.
From Verif Require Import BoxBlurSpec BoxBlur BoxBlurDiv BoxBlurRows BoxBlurPlanes.
Import ListNotations.
Open Scope Z_scope.

(** Joining clips that are either one plane of the clip or the clip itself. *)
Definition partVI (process : Z -> bool) (g : vfmt) (vi : vinfo) (i : Z) : vinfo := if process i then grayVI g vi i else vi.
Definition partPlane (process : Z -> bool) (i : Z) : Z := if process i then 0 else i.

Lemma part_facts : forall process vi g i, fmt_valid (vi_fmt vi) -> 1 <= vi_w vi -> 1 <= vi_h vi -> f_np (vi_fmt vi) = 3 -> 0 <= i < 3 ->
  queryFmt cfGray (f_st (vi_fmt vi)) (f_bits (vi_fmt vi)) 0 0 = Ok g ->
  1 <= planeW (vi_fmt vi) (vi_w vi) i -> 1 <= planeH (vi_fmt vi) (vi_h vi) i ->
  let v := partVI process g vi i in let p := partPlane process i in
  fmt_valid (vi_fmt v) /\ constantFormat v = true /\ badPlane v p = false /\ planeWidth v p = planeW (vi_fmt vi) (vi_w vi) i /\
  planeHeight v p = planeH (vi_fmt vi) (vi_h vi) i /\ f_bits (vi_fmt v) = f_bits (vi_fmt vi) /\ f_st (vi_fmt v) = f_st (vi_fmt vi) /\ vi_n v = vi_n vi.
Proof.
  intros process vi g i V W H N I Q W1 H1. destruct (grayFmt _ V) as (g' & Q' & Vg & G1 & G2 & G3 & G4). rewrite Q in Q'. injection Q' as <-.
  cbv zeta. unfold partVI, partPlane, badPlane, planeWidth, planeHeight. destruct (process i).
  - cbn [grayVI vi_fmt vi_w vi_h vi_n]. rewrite G4. change (0 <? 0) with false. change (1 <=? 0) with false. rewrite !andb_false_r.
    split; [exact Vg|]. split; [apply constantFormat_intro; auto|]. split; [reflexivity|]. split; [rewrite ?shiftr_ssw by exact Vg; reflexivity|].
    split; [rewrite ?shiftr_ssh by exact Vg; reflexivity|]. split; [exact G3|]. split; [exact G2|]. reflexivity.
  - split; [exact V|]. split; [apply constantFormat_intro; auto|]. rewrite N.
    split; [destruct (Z.ltb_spec i 0); [lia|]; destruct (Z.leb_spec 3 i); [lia|]; rewrite andb_false_r; reflexivity|].
    pose proof (shiftr_ssw _ (vi_w vi) i V) as SW. pose proof (shiftr_ssh _ (vi_h vi) i V) as SH.
    split; [exact SW|].
    split; [exact SH|]. auto.
Qed.

Lemma mixed_create : forall process vi g, fmt_valid (vi_fmt vi) -> 1 <= vi_w vi -> 1 <= vi_h vi -> f_np (vi_fmt vi) = 3 ->
  (2 ^ f_ssw (vi_fmt vi) | vi_w vi) -> (2 ^ f_ssh (vi_fmt vi) | vi_h vi) ->
  queryFmt cfGray (f_st (vi_fmt vi)) (f_bits (vi_fmt vi)) 0 0 = Ok g ->
  shuffleCreate [partVI process g vi 0; partVI process g vi 1; partVI process g vi 2] [0; partPlane process 1; partPlane process 2] (f_cf (vi_fmt vi)) =
  Ok (mkSD [0; 1; 2] [0; partPlane process 1; partPlane process 2] vi).
Proof.
  intros process vi g V W H N DW DH Q.
  assert (CF : f_cf (vi_fmt vi) = cfRGB \/ f_cf (vi_fmt vi) = cfYUV) by (destruct V as (VC & _ & _ & _ & NP); lia).
  pose proof (valid_ss _ V) as SS. pose proof (pow_ss (f_ssw (vi_fmt vi)) ltac:(lia)) as PW. pose proof (pow_ss (f_ssh (vi_fmt vi)) ltac:(lia)) as PH.
  assert (W1 : 1 <= vi_w vi / 2 ^ f_ssw (vi_fmt vi)) by (destruct DW as (k & K); rewrite K, Z.div_mul by lia; nia).
  assert (H1 : 1 <= vi_h vi / 2 ^ f_ssh (vi_fmt vi)) by (destruct DH as (k & K); rewrite K, Z.div_mul by lia; nia).
  assert (PD : forall i, 1 <= planeW (vi_fmt vi) (vi_w vi) i /\ 1 <= planeH (vi_fmt vi) (vi_h vi) i) by (intros i; unfold planeW, planeH; destruct (i =? 0); lia).
  pose proof (fun i I => part_facts process vi g i V W H N I Q (proj1 (PD i)) (proj2 (PD i))) as PF. cbv zeta in PF.
  destruct (PF 0 ltac:(lia)) as (A1 & A2 & A3 & A4 & A5 & A6 & A7 & A8).
  destruct (PF 1 ltac:(lia)) as (B1 & B2 & B3 & B4 & B5 & B6 & B7 & B8).
  destruct (PF 2 ltac:(lia)) as (C1 & C2 & C3 & C4 & C5 & C6 & C7 & C8).
  assert (P0 : partPlane process 0 = 0) by (unfold partPlane; destruct (process 0); reflexivity). rewrite P0 in *.
  assert (PS : forall i, 0 <= i < 3 -> sat32 (partPlane process i) = partPlane process i).
  { intros i I. unfold partPlane. destruct (process i); [reflexivity|]. destruct (i_cases i I) as [->|[->| ->]]; reflexivity. }
  unfold shuffleCreate.
  assert (FA : familyArg (sat32 (f_cf (vi_fmt vi))) = Some (f_cf (vi_fmt vi))) by (destruct CF as [-> | ->]; reflexivity).
  rewrite FA. destruct (Z.eqb_spec (f_cf (vi_fmt vi)) cfGray) as [C|_]; [unfold cfGray, cfRGB, cfYUV in *; lia|].
  change (3 <? zlength [partVI process g vi 0; partVI process g vi 1; partVI process g vi 2]) with false.
  change (3 <? zlength [0; partPlane process 1; partPlane process 2]) with false.
  cbn iota. cbn [forallb map]. rewrite A2, B2, C2. cbn [andb negb pick3]. rewrite !PS by lia. change (sat32 0) with 0.
  rewrite A3, B3, C3, A4, A5, B4, B5, C4, C5, A6, A7, A8, B6, B7, B8, C6, C7, C8. cbn [orb].
  unfold planeW, planeH. change (0 =? 0) with true. change (1 =? 0) with false. change (2 =? 0) with false. cbv iota.
  rewrite !Z.eqb_refl. cbn [negb orb].
  assert (SW : findSubSampling (vi_w vi) (vi_w vi / 2 ^ f_ssw (vi_fmt vi)) = f_ssw (vi_fmt vi)).
  { unfold findSubSampling. replace (vi_w vi) with (vi_w vi / 2 ^ f_ssw (vi_fmt vi) * 2 ^ f_ssw (vi_fmt vi)) at 1.
    - apply findSub_found; lia.
    - destruct DW as (k & K). rewrite K, Z.div_mul by lia. reflexivity. }
  assert (SH : findSubSampling (vi_h vi) (vi_h vi / 2 ^ f_ssh (vi_fmt vi)) = f_ssh (vi_fmt vi)).
  { unfold findSubSampling. replace (vi_h vi) with (vi_h vi / 2 ^ f_ssh (vi_fmt vi) * 2 ^ f_ssh (vi_fmt vi)) at 1.
    - apply findSub_found; lia.
    - destruct DH as (k & K). rewrite K, Z.div_mul by lia. reflexivity. }
  rewrite SW, SH. destruct (Z.ltb_spec (f_ssh (vi_fmt vi)) 0); [lia|]. destruct (Z.ltb_spec (f_ssw (vi_fmt vi)) 0); [lia|].
  cbn [orb].
  assert (NR : (f_cf (vi_fmt vi) =? cfRGB) && (negb (f_ssh (vi_fmt vi) =? 0) || negb (f_ssw (vi_fmt vi) =? 0)) = false).
  { destruct (Z.eqb_spec (f_cf (vi_fmt vi)) cfRGB) as [C|]; [|reflexivity].
    destruct (ss_zero _ V) as (-> & ->); [rewrite C; unfold cfRGB, cfYUV; lia|]. reflexivity. }
  rewrite NR. unfold queryFmt. rewrite query_exact by exact V. unfold obind. rewrite !Z.max_id. destruct vi; reflexivity.
Qed.

Lemma byteFrame_inRange : forall fr i a, byteFrame fr -> fmt_valid (vf_fmt fr) -> planeImg fr i = Some a -> inRange (f_bytes (vf_fmt fr)) a.
Proof.
  intros fr i a B V E x y X Y. unfold planeImg in E. destruct (nthz (vf_planes fr) i) as [p|] eqn:P; [|discriminate]. injection E as <-.
  pose proof (valid_bytes _ V). apply image_range; [lia|]. exact (B i p P).
Qed.

(** Whole frames of three planes. *)
Lemma frame3 : forall e a process vi src, alignment (am_al e) -> fmt_valid (vi_fmt vi) -> f_np (vi_fmt vi) = 3 ->
  f_st (vi_fmt vi) = stInteger -> f_bits (vi_fmt vi) <= 16 -> (2 ^ f_ssw (vi_fmt vi) | vi_w vi) -> (2 ^ f_ssh (vi_fmt vi) | vi_h vi) ->
  ba_hr a <= 30000 -> ba_vr a <= 30000 -> vi_w vi < 2 ^ 30 -> vi_h vi < 2 ^ 30 ->
  wfFrame (am_al e) src -> byteFrame src -> matches src vi ->
  exists r, boxFrame e a process vi src = Ok r /\ wfFrame (am_al e) r /\ vf_fmt r = vf_fmt src /\ vf_w r = vf_w src /\ vf_h r = vf_h src /\
    vf_props r = vf_props src /\ planesMap (fun i x => if process i then boxBlur (ba_hr a) (ba_hp a) (ba_vr a) (ba_vp a) x else x) src r.
Proof.
  intros e a process vi src A V N FI FB DW DH HR VR WB HB WF BF M.
  pose proof (alignment_isAl _ A) as IA. pose proof WF as (Vs & Ws & Hs & _). pose proof M as (M1 & M2 & M3).
  assert (W : 1 <= vi_w vi) by lia. assert (H : 1 <= vi_h vi) by lia.
  destruct (grayFmt _ V) as (g & Q & Vg & G1 & G2 & G3 & G4).
  pose proof (valid_ss _ V) as SS. pose proof (pow_ss (f_ssw (vi_fmt vi)) ltac:(lia)) as PW. pose proof (pow_ss (f_ssh (vi_fmt vi)) ltac:(lia)) as PH.
  assert (W1 : 1 <= vi_w vi / 2 ^ f_ssw (vi_fmt vi)) by (destruct DW as (k & K); rewrite K, Z.div_mul by lia; nia).
  assert (H1 : 1 <= vi_h vi / 2 ^ f_ssh (vi_fmt vi)) by (destruct DH as (k & K); rewrite K, Z.div_mul by lia; nia).
  assert (PD : forall i, 1 <= planeW (vi_fmt vi) (vi_w vi) i /\ 1 <= planeH (vi_fmt vi) (vi_h vi) i) by (intros i; unfold planeW, planeH; destruct (i =? 0); lia).
  set (R := fun i x => if process i then boxBlur (ba_hr a) (ba_hp a) (ba_vr a) (ba_vp a) x else x).
  assert (PART : forall i, 0 <= i < 3 -> exists part x y, boxPart e a process vi src i = Ok (partVI process g vi i, part) /\
     wfFrame (am_al e) part /\ matches part (partVI process g vi i) /\ vf_props part = vf_props src /\
     planeImg src i = Some x /\ planeImg part (partPlane process i) = Some y /\ same y (R i x)).
  { intros i I. destruct (wf_plane (am_al e) src i IA WF ltac:(rewrite M1; lia)) as (pl & Ei & _).
    assert (EX : exists x, planeImg src i = Some x) by (unfold planeImg; rewrite Ei; eexists; reflexivity). destruct EX as (x & EX).
    unfold boxPart, partVI, partPlane, R. destruct (process i).
    2:{ exists src, x, x. do 6 (split; [auto|]). apply same_refl. }
    destruct (extract_create vi i V W H ltac:(lia)) as (g1 & E1 & Q1). rewrite Q in Q1. injection Q1 as <-.
    rewrite E1. unfold obind at 1.
    destruct (shuffle_frame (am_al e) [vi] [i] cfGray _ [src] src IA ltac:(auto) ltac:(discriminate) E1) as (part & P1 & P2 & P3 & P4 & P5).
    - cbn. lia.
    - cbn [sd_vi grayVI vi_w]. apply PD.
    - cbn [sd_vi grayVI vi_h]. apply PD.
    - constructor; [exact M | constructor].
    - constructor; [exact WF | constructor].
    - rewrite P1. unfold obind at 1. pose proof P3 as (T1 & T2 & T3). cbn [sd_vi grayVI vi_fmt vi_w vi_h] in T1, T2, T3.
      destruct (P5 0) as (fr & F1 & F2 & _); [rewrite T1; lia|]. cbn in F1. injection F1 as <-. unfold wantedPlane in F2. rewrite nthz_cons_0 in F2. rewrite EX in F2.
      destruct (chain_frame e a (sd_vi (mkSD [0] [i] (grayVI g vi i))) part x A P2 P3) as (r & R1 & R2 & R3 & R4 & R5 & R6 & R7 & b & R8 & R9); auto.
      + split; [rewrite T1; exact G4|]. exists x. split; [exact F2 | apply same_refl].
      + rewrite T1, G2. exact FI.
      + rewrite T1, G3. exact FB.
      + rewrite T2. pose proof (planeW_bounds (vi_fmt vi) (vi_w vi) i V ltac:(lia)). lia.
      + rewrite T3. pose proof (planeH_bounds (vi_fmt vi) (vi_h vi) i V ltac:(lia)). lia.
      + replace (f_bytes (vf_fmt part)) with (f_bytes (vf_fmt src)); [apply (byteFrame_inRange src i); auto|].
        rewrite T1, M1. destruct V as (_ & VL & VB & _). destruct Vg as (_ & _ & VB' & _). rewrite G3 in VB'. exact (storage_inj _ _ _ VB VB').
      + rewrite R1. unfold obind. exists r, x, b. split; [reflexivity|]. split; [exact R2|].
        split; [destruct P3 as (P3a & P3b & P3c); split; [|split]; cbn [sd_vi] in *; congruence|]. split; [congruence|]. auto. }
  destruct (PART 0 ltac:(lia)) as (f0 & x0 & y0 & E0 & X0 & M0 & Y0 & S0 & T0 & U0).
  destruct (PART 1 ltac:(lia)) as (f1 & x1 & y1 & E1 & X1 & N1 & Y1 & S1 & T1 & U1).
  destruct (PART 2 ltac:(lia)) as (f2 & x2 & y2 & E2 & X2 & N2 & Y2 & S2 & T2 & U2).
  unfold boxFrame. rewrite N. change (3 =? 1) with false. cbv iota. rewrite E0. unfold obind at 1. rewrite E1. unfold obind at 1. rewrite E2. unfold obind at 1. cbn [fst snd].
  change (if process 1 then 0 else 1) with (partPlane process 1). change (if process 2 then 0 else 2) with (partPlane process 2).
  pose proof (mixed_create process vi g V W H N DW DH Q) as MC. rewrite MC. unfold obind.
  pose proof (fun i I => part_facts process vi g i V W H N I Q (proj1 (PD i)) (proj2 (PD i))) as PF. cbv zeta in PF.
  assert (VV : Forall (fun v => fmt_valid (vi_fmt v)) [partVI process g vi 0; partVI process g vi 1; partVI process g vi 2])
    by (constructor; [apply (PF 0); lia|]; constructor; [apply (PF 1); lia|]; constructor; [apply (PF 2); lia | constructor]).
  destruct (shuffle_frame (am_al e) _ _ (f_cf (vi_fmt vi)) _ [f0; f1; f2] f0 IA VV ltac:(discriminate) MC) as (r & R1 & R2 & R3 & R4 & R5).
  - cbn [sd_vi]. lia.
  - exact W.
  - exact H.
  - constructor; [exact M0|]. constructor; [exact N1|]. constructor; [exact N2|]. constructor.
  - constructor; [exact X0|]. constructor; [exact X1|]. constructor; [exact X2|]. constructor.
  - exists r. split; [exact R1|]. split; [exact R2|]. destruct R3 as (R3 & R3' & R3''). cbn [sd_vi] in *.
    split; [congruence|]. split; [congruence|]. split; [congruence|]. split; [congruence|].
    intros i I. destruct (R5 i I) as (fr & F1 & F2 & F3). assert (I3 : 0 <= i < 3) by (rewrite R3 in I; lia).
    assert (P0 : partPlane process 0 = 0) by (unfold partPlane; destruct (process 0); reflexivity).
    destruct (i_cases i I3) as [->|[->| ->]].
    + cbn in F1. injection F1 as <-. change (wantedPlane [0; partPlane process 1; partPlane process 2] 0) with 0 in F2. rewrite P0 in T0. exists x0, y0. split; [exact S0|]. split; [congruence|]. exact U0.
    + cbn in F1. injection F1 as <-. change (wantedPlane [0; partPlane process 1; partPlane process 2] 1) with (partPlane process 1) in F2. exists x1, y1. split; [exact S1|]. split; [congruence|]. exact U1.
    + cbn in F1. injection F1 as <-. change (wantedPlane [0; partPlane process 1; partPlane process 2] 2) with (partPlane process 2) in F2. exists x2, y2. split; [exact S2|]. split; [congruence|]. exact U2.
Qed.

(** Single plane frames: [process] does not matter. *)
Lemma frame1 : forall e a process vi src, alignment (am_al e) -> f_np (vi_fmt vi) = 1 ->
  f_st (vi_fmt vi) = stInteger -> f_bits (vi_fmt vi) <= 16 ->
  ba_hr a <= 30000 -> ba_vr a <= 30000 -> vi_w vi < 2 ^ 30 -> vi_h vi < 2 ^ 30 ->
  wfFrame (am_al e) src -> byteFrame src -> matches src vi ->
  exists r, boxFrame e a process vi src = Ok r /\ wfFrame (am_al e) r /\ vf_fmt r = vf_fmt src /\ vf_w r = vf_w src /\ vf_h r = vf_h src /\
    vf_props r = vf_props src /\ planesMap (fun _ x => boxBlur (ba_hr a) (ba_hp a) (ba_vr a) (ba_vp a) x) src r.
Proof.
  intros e a process vi src A N FI FB HR VR WB HB WF BF M. pose proof (alignment_isAl _ A) as IA. pose proof WF as (V & _). pose proof M as (M1 & M2 & M3).
  destruct (wf_plane (am_al e) src 0 IA WF ltac:(rewrite M1; lia)) as (pl & Ei & _).
  assert (EX : exists x, planeImg src 0 = Some x) by (unfold planeImg; rewrite Ei; eexists; reflexivity). destruct EX as (x & EX).
  unfold boxFrame. rewrite N, Z.eqb_refl.
  destruct (chain_frame e a vi src x A WF M) as (r & R1 & R2 & R3 & R4 & R5 & R6 & R7 & b & R8 & R9); try (rewrite M1; assumption); auto; try lia.
  - split; [rewrite M1; exact N|]. exists x. split; [exact EX | apply same_refl].
  - apply (byteFrame_inRange src 0); auto.
  - exists r. do 6 (split; [auto|]). intros i I. assert (i = 0) by lia. subst i. exists x, b. auto.
Qed.

(** ** The filter as created *)
Definition boxRange (o : option Z) : Z := match o with Some v => v | None => 1 end.
Definition boxArgsOk (vi : vinfo) (hr hp vr vp : Z) : Prop :=
  f_cf (vi_fmt vi) <> cfUndefined /\ f_st (vi_fmt vi) = stInteger /\ f_bits (vi_fmt vi) <= 16 /\ 4 <= vi_w vi /\ 4 <= vi_h vi /\
  0 <= hr <= 30000 /\ 0 <= vr <= 30000 /\ 0 <= hp /\ 0 <= vp /\ (0 < hr /\ 0 < hp \/ 0 < vr /\ 0 < vp).

Lemma argOr1_int : forall o, (forall v, o = Some v -> in_int v) -> argOr1 o = boxRange o.
Proof.
  intros [v|] H; [|reflexivity]. specialize (H v eq_refl). unfold in_int in H. cbn [argOr1 boxRange]. unfold sat32.
  destruct (Z.ltb_spec INT_MAX v); [lia|]. destruct (Z.ltb_spec v INT_MIN); [lia|]. reflexivity.
Qed.

Lemma create_inv : forall vi planes hr hp vr vp a process, boxCreate vi planes hr hp vr vp = Ok (a, process) ->
  a = mkBA (argOr1 hr) (argOr1 hp) (argOr1 vr) (argOr1 vp) /\ getPlanesArg planes = Some process /\ boxArgsOk vi (ba_hr a) (ba_hp a) (ba_vr a) (ba_vp a).
Proof.
  intros vi planes hr hp vr vp a process E. unfold boxCreate in E.
  destruct (Z.eqb_spec (f_cf (vi_fmt vi)) cfUndefined); [discriminate|].
  destruct (Z.eqb_spec (f_st (vi_fmt vi)) stInteger); [|discriminate].
  destruct (Z.ltb_spec 16 (f_bits (vi_fmt vi))); [discriminate|]. cbn [negb orb] in E.
  destruct (getPlanesArg planes) as [pr|]; [|discriminate]. cbv zeta in E. cbn [ba_hr ba_hp ba_vr ba_vp] in E.
  destruct (Z.ltb_spec (argOr1 hp) 0); [discriminate|]. destruct (Z.ltb_spec (argOr1 vp) 0); [discriminate|]. cbn [orb] in E.
  destruct (Z.ltb_spec (argOr1 hr) 0); [discriminate|]. destruct (Z.ltb_spec (argOr1 vr) 0); [discriminate|]. cbn [orb] in E.
  destruct (Z.ltb_spec 30000 (argOr1 hr)); [discriminate|]. destruct (Z.ltb_spec 30000 (argOr1 vr)); [discriminate|]. cbn [orb] in E.
  unfold on2 in E.
  destruct (Z.ltb_spec (vi_w vi) 4) as [|WW]; [destruct (negb _ && negb _); discriminate|]. destruct (Z.ltb_spec (vi_h vi) 4) as [|HH]; [destruct (negb _ && negb _); discriminate|].
  cbn [orb] in E.
  destruct (Z.ltb_spec 0 (argOr1 hr)); destruct (Z.ltb_spec 0 (argOr1 hp)); destruct (Z.ltb_spec 0 (argOr1 vr)); destruct (Z.ltb_spec 0 (argOr1 vp));
    cbn [andb negb] in E; try discriminate; injection E as <- <-; (split; [reflexivity|]; split; [reflexivity|]);
    unfold boxArgsOk; cbn [ba_hr ba_hp ba_vr ba_vp]; do 4 (split; [assumption|]); lia.
Qed.

Lemma create_ok : forall vi planes hr hp vr vp process, getPlanesArg planes = Some process ->
  boxArgsOk vi (argOr1 hr) (argOr1 hp) (argOr1 vr) (argOr1 vp) ->
  boxCreate vi planes hr hp vr vp = Ok (mkBA (argOr1 hr) (argOr1 hp) (argOr1 vr) (argOr1 vp), process).
Proof.
  intros vi planes hr hp vr vp process E (A1 & A2 & A3 & A4 & A5 & A6 & A7 & A8 & A9 & A10). unfold boxCreate.
  destruct (Z.eqb_spec (f_cf (vi_fmt vi)) cfUndefined); [lia|].
  destruct (Z.eqb_spec (f_st (vi_fmt vi)) stInteger); [|lia].
  destruct (Z.ltb_spec 16 (f_bits (vi_fmt vi))); [lia|]. cbn [negb orb]. rewrite E. cbv zeta. cbn [ba_hr ba_hp ba_vr ba_vp].
  destruct (Z.ltb_spec (argOr1 hp) 0); [lia|]. destruct (Z.ltb_spec (argOr1 vp) 0); [lia|]. cbn [orb].
  destruct (Z.ltb_spec (argOr1 hr) 0); [lia|]. destruct (Z.ltb_spec (argOr1 vr) 0); [lia|]. cbn [orb].
  destruct (Z.ltb_spec 30000 (argOr1 hr)); [lia|]. destruct (Z.ltb_spec 30000 (argOr1 vr)); [lia|]. cbn [orb].
  destruct (Z.ltb_spec (vi_w vi) 4); [lia|]. destruct (Z.ltb_spec (vi_h vi) 4); [lia|]. cbn [orb]. unfold on2.
  destruct (Z.ltb_spec 0 (argOr1 hr)); destruct (Z.ltb_spec 0 (argOr1 hp)); destruct (Z.ltb_spec 0 (argOr1 vr)); destruct (Z.ltb_spec 0 (argOr1 vp));
    cbn [andb negb]; try reflexivity; lia.
Qed.

Definition boxed (e : ambient) (src : vframe) (r : vframe) (R : Z -> image -> image) : Prop :=
  wfFrame (am_al e) r /\ vf_fmt r = vf_fmt src /\ vf_w r = vf_w src /\ vf_h r = vf_h src /\ vf_props r = vf_props src /\ planesMap R src r.

Lemma boxed_chosen : forall e vi planes hr hp vr vp a process src, boxCreate vi planes hr hp vr vp = Ok (a, process) ->
  alignment (am_al e) -> fmt_valid (vi_fmt vi) -> f_np (vi_fmt vi) = 3 -> Forall in_int planes ->
  (2 ^ f_ssw (vi_fmt vi) | vi_w vi) -> (2 ^ f_ssh (vi_fmt vi) | vi_h vi) -> vi_w vi < 2 ^ 30 -> vi_h vi < 2 ^ 30 ->
  wfFrame (am_al e) src -> byteFrame src -> matches src vi ->
  exists r, boxFrame e a process vi src = Ok r /\
    boxed e src r (fun i x => if chosen planes i then boxBlur (argOr1 hr) (argOr1 hp) (argOr1 vr) (argOr1 vp) x else x).
Proof.
  intros e vi planes hr hp vr vp a process src E A V N PI DW DH WB HB WF BF M.
  destruct (create_inv _ _ _ _ _ _ _ _ E) as (AE & GP & (C1 & C2 & C3 & C4 & C5 & C6 & C7 & C8 & C9 & C10)).
  destruct (frame3 e a process vi src) as (r & R1 & R2 & R3 & R4 & R5 & R6 & R7); auto; try lia.
  exists r. split; [exact R1|]. do 5 (split; [assumption|]). intros i I. destruct (R7 i I) as (x & y & X & Y & S). exists x, y. split; [exact X|]. split; [exact Y|].
  assert (I3 : 0 <= i < 3). { destruct M as (M1 & _). rewrite R3, M1 in I. lia. }
  rewrite (getPlanesArg_chosen planes process GP PI i I3) in S. rewrite AE in S. exact S.
Qed.

Lemma boxed_gray : forall e vi planes hr hp vr vp a process src, boxCreate vi planes hr hp vr vp = Ok (a, process) ->
  alignment (am_al e) -> fmt_valid (vi_fmt vi) -> f_np (vi_fmt vi) = 1 ->
  vi_w vi < 2 ^ 30 -> vi_h vi < 2 ^ 30 ->
  wfFrame (am_al e) src -> byteFrame src -> matches src vi ->
  exists r, boxFrame e a process vi src = Ok r /\ boxed e src r (fun _ x => boxBlur (argOr1 hr) (argOr1 hp) (argOr1 vr) (argOr1 vp) x).
Proof.
  intros e vi planes hr hp vr vp a process src E A V N WB HB WF BF M.
  destruct (create_inv _ _ _ _ _ _ _ _ E) as (AE & GP & (C1 & C2 & C3 & C4 & C5 & C6 & C7 & C8 & C9 & C10)).
  destruct (frame1 e a process vi src) as (r & R1 & R2 & R3 & R4 & R5 & R6 & R7); auto; try lia.
  exists r. split; [exact R1|]. do 5 (split; [assumption|]). rewrite AE in R7. exact R7.
Qed.

(** ** Examples and the ignored plane list *)
Definition plainAm : ambient := mkAm 32 (fun _ _ => 3) (fun _ => 5) true.
Definition boxRun (vi : vinfo) (planes : list Z) (hr hp vr vp : option Z) (src : vframe) : outcome vframe :=
  obind (boxCreate vi planes hr hp vr vp) (fun c => boxFrame plainAm (fst c) (snd c) vi src).

Lemma gray_planes_ignored : exists a process r p q, boxCreate (viOf gray8 4 4) [1] None None None None = Ok (a, process) /\
  boxFrame plainAm a process (viOf gray8 4 4) (drawn 32 gray8 4 4 (fun _ x y => 9 * x)) = Ok r /\
  chosen [1] 0 = false /\
  planeImg (drawn 32 gray8 4 4 (fun _ x y => 9 * x)) 0 = Some p /\ planeImg r 0 = Some q /\ i_at p 0 0 = 0 /\ i_at q 0 0 = 3.
Proof.
  assert (H : match boxCreate (viOf gray8 4 4) [1] None None None None with
    | Ok c => match boxFrame plainAm (fst c) (snd c) (viOf gray8 4 4) (drawn 32 gray8 4 4 (fun _ x y => 9 * x)) with
        | Ok r => match planeImg r 0 with Some q => i_at q 0 0 =? 3 | None => false end
        | _ => false end
    | _ => false end = true) by (vm_compute; reflexivity).
  destruct (boxCreate (viOf gray8 4 4) [1] None None None None) as [(a & process)| |]; try discriminate. cbn [fst snd] in H.
  destruct (boxFrame plainAm a process (viOf gray8 4 4) (drawn 32 gray8 4 4 (fun _ x y => 9 * x))) as [r| |] eqn:E; try discriminate.
  destruct (planeImg r 0) as [q|] eqn:P; [|discriminate]. apply Z.eqb_eq in H.
  exists a, process, r. eexists. exists q. split; [reflexivity|]. split; [exact E|]. split; [reflexivity|]. split; [reflexivity|]. split; [exact P|]. split; [reflexivity|]. exact H.
Qed.

Lemma create_iff : forall vi planes hr hp vr vp a process, boxCreate vi planes hr hp vr vp = Ok (a, process) <->
  a = mkBA (argOr1 hr) (argOr1 hp) (argOr1 vr) (argOr1 vp) /\ getPlanesArg planes = Some process /\ boxArgsOk vi (argOr1 hr) (argOr1 hp) (argOr1 vr) (argOr1 vp).
Proof.
  intros. split.
  - intros E. destruct (create_inv _ _ _ _ _ _ _ _ E) as (A & B & C). rewrite A in C. auto.
  - intros (A & B & C). rewrite A. apply create_ok; assumption.
Qed.

Lemma unchosen_kept : forall e vi planes hr hp vr vp a process src, boxCreate vi planes hr hp vr vp = Ok (a, process) ->
  alignment (am_al e) -> fmt_valid (vi_fmt vi) -> f_np (vi_fmt vi) = 3 -> Forall in_int planes ->
  (2 ^ f_ssw (vi_fmt vi) | vi_w vi) -> (2 ^ f_ssh (vi_fmt vi) | vi_h vi) -> vi_w vi < 2 ^ 30 -> vi_h vi < 2 ^ 30 ->
  wfFrame (am_al e) src -> byteFrame src -> matches src vi ->
  exists r, boxFrame e a process vi src = Ok r /\ forall i x, 0 <= i < 3 -> chosen planes i = false -> planeImg src i = Some x ->
    exists y, planeImg r i = Some y /\ same y x.
Proof.
  intros e vi planes hr hp vr vp a process src E A V N PI DW DH WB HB WF BF M.
  destruct (boxed_chosen e vi planes hr hp vr vp a process src) as (r & R & (_ & F & _ & _ & _ & PM)); auto.
  exists r. split; [exact R|]. intros i x I C X. destruct (PM i) as (u & y & U & Y & S).
  { destruct M as (M1 & _). rewrite F, M1. lia. }
  exists y. split; [exact Y|]. rewrite C in S. congruence.
Qed.
