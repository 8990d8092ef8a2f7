(** Drawing text: the theorems. *)
From Coq Require Import ZArith List Bool Lia.
From Verif Require Import Common FormatSpec Format FrameSpec Frame FrameLemmas FrameGeom FrameFacts ImageSpec PlaneMem Spatial SpatialLemmas SpatialFrames Pixel PixelLemmas TextSpec Text TextLemmas TextDraw TextFrame.
Import ListNotations.
Open Scope Z_scope.

Lemma text_frame : forall al font t a s src, alignment al -> wfFrame al src -> zlength font = 4016 -> Forall (fun c => 0 <= c < 256) t -> 1 <= a <= 9 -> 1 <= s ->
  is8to16orFloat (vf_fmt src) = true -> 32 + 8 * s <= vf_w src -> 32 + 16 * s <= vf_h src ->
  exists r, textGetFrame font t a s src = Ok r /\ wfFrame al r /\ vf_fmt r = vf_fmt src /\ vf_w r = vf_w src /\ vf_h r = vf_h src /\ vf_props r = vf_props src /\
    forall i, 0 <= i < f_np (vf_fmt src) -> exists p q, planeImg src i = Some p /\ planeImg r i = Some q /\
      same q (mkI (i_w p) (i_h p) (planeWithText (fontAt font) (vf_fmt src) (layout t (vf_w src) (vf_h src) s) a (vf_w src) (vf_h src) s i (i_at p))).
Proof.
  intros al font t a s src AL WF FL TB A S1 SU WB HB. pose proof (alignment_isAl al AL) as IA. pose proof WF as (V & W1 & H1 & LP & PP).
  unfold textGetFrame. rewrite SU. cbn [negb]. unfold margin, characterWidth, characterHeight.
  destruct (Z.ltb_spec (vf_w src) (2 * 16 + 8 * s)) as [T1|T1]; [lia|]. destruct (Z.ltb_spec (vf_h src) (2 * 16 + 16 * s)) as [T2|T2]; [lia|]. clear T1 T2. cbn [orb].
  unfold scrawlText, margin. rewrite split_ok by assumption. cbn [obind].
  set (W := vf_w src) in *. set (H := vf_h src) in *. set (f := vf_fmt src) in *. set (ls := layout t W H s).
  assert (RW : Z.of_nat (length ls) * (16 * s) <= H - 32) by (apply layout_rows; lia).
  assert (CL : forall l, In l ls -> Z.of_nat (length l) * (8 * s) <= W - 32) by (intros l L; apply (layout_columns t W H s l); assumption || lia).
  assert (CD : forall l c, In l ls -> In c l -> 0 <= c < 256) by (intros l c L C; apply (layout_codes t W H s l c); assumption).
  destruct (eachPlane_spec (fun i q => exists p, nthz (vf_planes src) i = Some p /\ p_stride q = p_stride p /\ b_size (p_buf q) = b_size (p_buf p) /\
      shown (f_bytes f) (planeW f W i) (planeH f H i) (p_stride q) (p_buf q) (planeWithText (fontAt font) f ls a W H s i (at_ (f_bytes f) (p_stride p) (p_buf p))))
    (fun i => match nthz (vf_planes src) i with
      | None => UB
      | Some p => obind (drawLines font f i (p_stride p) a s W (startYOf a s H (zlength (map (map adjust) ls))) (map (map adjust) ls) (p_buf p)) (fun m => Ok (mkPl (p_stride p) m))
      end) (Z.to_nat (f_np f)) 0) as (l & E & L & Q).
  - intros i I. rewrite Z2Nat.id in I by (pose proof (valid_np f V); lia). destruct (wf_plane al src i IA WF ltac:(fold f; lia)) as (p & NP & WP). fold f W H in WP. rewrite NP.
    destruct (PP i p NP) as (P1 & P2). destruct WP as (WP1 & WP2 & WP3 & WP4).
    assert (DV : (f_bytes f | p_stride p)) by (rewrite P1; apply stride_mult; [exact IA|destruct AL as [->| ->]; lia|exact V]).
    destruct ((f_cf f =? cfRGB) || (i =? 0)) eqn:IK.
    + assert (EW : planeW f W i = W /\ planeH f H i = H).
      { unfold planeW, planeH. destruct (Z.eqb_spec i 0) as [->|N]; [split; reflexivity|]. rewrite orb_false_r in IK. apply Z.eqb_eq in IK.
        destruct V as (_ & _ & _ & [(YUV & _)|(_ & -> & ->)] & _); [exfalso; rewrite IK in YUV; discriminate|]. rewrite !Z.div_1_r. split; reflexivity. }
      destruct EW as (EW & EH). rewrite EW, EH in *.
      destruct (ink_plane font f a s W H ls FL V SU A S1 ltac:(lia) RW CL CD i (p_stride p) (p_buf p) IK WP3 DV WP4) as (m & F & G).
      exists (mkPl (p_stride p) m). rewrite F. split; [reflexivity|]. exists p. cbn [p_stride p_buf]. split; [reflexivity|]. split; [reflexivity|]. split; [destruct G as (G & _); congruence|].
      unfold planeWithText. rewrite IK. exact G.
    + assert (EW : planeW f W i = W / 2 ^ f_ssw f /\ planeH f H i = H / 2 ^ f_ssh f).
      { unfold planeW, planeH. apply orb_false_iff in IK. destruct IK as (_ & ->). split; reflexivity. }
      destruct EW as (EW & EH). rewrite EW, EH in *.
      destruct (blank_plane font f a s W H ls V SU A S1 ltac:(lia) RW CL i (p_stride p) (p_buf p) IK WP3 DV WP4 ltac:(lia) ltac:(lia)) as (m & F & G).
      exists (mkPl (p_stride p) m). rewrite F. split; [reflexivity|]. exists p. cbn [p_stride p_buf]. split; [reflexivity|]. split; [reflexivity|]. split; [destruct G as (G & _); congruence|].
      unfold planeWithText. rewrite IK. exact G.
  - rewrite E. cbn [obind]. eexists. split; [reflexivity|]. cbn [vf_fmt vf_w vf_h vf_props vf_planes]. fold f W H.
    assert (LL : zlength l = f_np f) by (unfold zlength; rewrite L; pose proof (valid_np f V); lia).
    split; [|split; [reflexivity|split; [reflexivity|split; [reflexivity|split; [reflexivity|]]]]].
    + split; [exact V|]. split; [exact W1|]. split; [exact H1|]. cbn [vf_fmt vf_w vf_h vf_planes]. split; [exact LL|].
      intros i q NQ. destruct (Q i q NQ) as (p & NP & E1 & E2 & _). rewrite Z.add_0_l in *. rewrite E1, E2. apply (PP i p NP).
    + intros i I. destruct (nthz l i) as [q|] eqn:NQ; [|exfalso; apply nthz_None_iff in NQ; lia].
      destruct (Q i q NQ) as (p & NP & E1 & E2 & SH). rewrite Z.add_0_l in *.
      exists (imageOf (f_bytes f) p (planeW f W i) (planeH f H i)), (imageOf (f_bytes f) q (planeW f W i) (planeH f H i)).
      unfold planeImg. cbn [vf_fmt vf_w vf_h vf_planes]. rewrite NP, NQ. split; [reflexivity|]. split; [reflexivity|].
      split; [reflexivity|]. split; [reflexivity|]. cbn [imageOf i_w i_h i_at]. intros x y X Y. destruct SH as (_ & SH). apply (SH x y X Y).
Qed.

(** Where characters are. *)
Lemma charAt_inside : forall t a W H s x y c gx gy, 1 <= s -> 32 + 8 * s <= W -> 32 + 16 * s <= H ->
  charAt (layout t W H s) a W H s x y = Some (c, gx, gy) -> 16 <= x < W - 16 /\ 16 <= y < H - 16 /\ 0 <= gx < 8 /\ 0 <= gy < 16 /\ exists l, In l (layout t W H s) /\ In c l.
Proof.
  intros t a W H s x y c gx gy S1 WB HB E. set (ls := layout t W H s) in *. unfold charAt in E.
  assert (RW : Z.of_nat (length ls) * (16 * s) <= H - 32) by (apply layout_rows; lia).
  destruct (place_in (vSide a) H (Z.of_nat (length ls) * (16 * s)) ltac:(nia)) as (PY1 & PY2). fold (originY a H s ls) in PY1, PY2.
  destruct (Z.ltb_spec (y - originY a H s ls) 0) as [|Y0]; [discriminate|].
  destruct (nth_error ls _) as [l|] eqn:NL; [|discriminate].
  assert (IL : In l ls) by (apply nth_error_In in NL; exact NL).
  assert (CL : Z.of_nat (length l) * (8 * s) <= W - 32) by (apply (layout_columns t W H s l); assumption || lia).
  destruct (place_in (hSide a) W (Z.of_nat (length l) * (8 * s)) ltac:(nia)) as (PX1 & PX2). fold (originX a W s l) in PX1, PX2.
  destruct (Z.ltb_spec (x - originX a W s l) 0) as [|X0]; [discriminate|].
  destruct (nth_error l _) as [c'|] eqn:NC; [|discriminate]. assert (E1 : c' = c) by congruence. assert (E2 : (x - originX a W s l) mod (8 * s) / s = gx) by congruence. assert (E3 : (y - originY a H s ls) mod (16 * s) / s = gy) by congruence. clear E.
  assert (IC : In c' l) by (apply nth_error_In in NC; exact NC). subst c'.
  assert (N1 := proj1 (nth_error_Some ls _) ltac:(rewrite NL; discriminate)). assert (N2 := proj1 (nth_error_Some l _) ltac:(rewrite NC; discriminate)).
  pose proof (Z.div_mod (y - originY a H s ls) (16 * s) ltac:(lia)) as D1. pose proof (Z.mod_pos_bound (y - originY a H s ls) (16 * s) ltac:(lia)) as M1.
  pose proof (Z.div_mod (x - originX a W s l) (8 * s) ltac:(lia)) as D2. pose proof (Z.mod_pos_bound (x - originX a W s l) (8 * s) ltac:(lia)) as M2.
  assert (Q1 : (y - originY a H s ls) / (16 * s) < Z.of_nat (length ls)) by lia. assert (Q2 : (x - originX a W s l) / (8 * s) < Z.of_nat (length l)) by lia.
  split; [nia|]. split; [nia|].
  split; [subst gx; clear - M1 M2 S1; split; [apply Z.div_pos; lia|apply Z.div_lt_upper_bound; lia]|].
  split; [subst gy; clear - M1 M2 S1; split; [apply Z.div_pos; lia|apply Z.div_lt_upper_bound; lia]|].
  exists l. split; assumption.
Qed.
Lemma charAt_shown : forall ls a W H s r l j c u v, 1 <= s -> nth_error ls r = Some l -> nth_error l j = Some c -> 0 <= u < 8 * s -> 0 <= v < 16 * s ->
  charAt ls a W H s (originX a W s l + Z.of_nat j * (8 * s) + u) (originY a H s ls + Z.of_nat r * (16 * s) + v) = Some (c, u / s, v / s).
Proof.
  intros ls a W H s r l j c u v S1 R J U V. unfold charAt.
  replace (originY a H s ls + Z.of_nat r * (16 * s) + v - originY a H s ls) with (v + Z.of_nat r * (16 * s)) by lia.
  rewrite Z.div_add, Z_mod_plus_full, (Z.div_small v), (Z.mod_small v), Z.add_0_l, Nat2Z.id, R by lia.
  replace (originX a W s l + Z.of_nat j * (8 * s) + u - originX a W s l) with (u + Z.of_nat j * (8 * s)) by lia.
  rewrite Z.div_add, Z_mod_plus_full, (Z.div_small u), (Z.mod_small u), Z.add_0_l, Nat2Z.id, J by lia.
  destruct (Z.ltb_spec (v + Z.of_nat r * (16 * s)) 0); [nia|]. destruct (Z.ltb_spec (u + Z.of_nat j * (8 * s)) 0); [nia|]. reflexivity.
Qed.
(** A pixel of the text lies in one of the spots. *)
Lemma charAt_spot : forall ls a W H s x y c gx gy, 1 <= s -> charAt ls a W H s x y = Some (c, gx, gy) ->
  exists l X Y, In l ls /\ In (X, Y) (spots ls a W H s) /\ X <= x < X + 8 * s /\ Y <= y < Y + 16 * s /\ (exists j, X = originX a W s l + j * (8 * s)) /\ (exists r, Y = originY a H s ls + r * (16 * s)).
Proof.
  intros ls a W H s x y c gx gy S1 E. unfold charAt in E.
  destruct (Z.ltb_spec (y - originY a H s ls) 0) as [|Y0]; [discriminate|].
  destruct (nth_error ls _) as [l|] eqn:NL; [|discriminate].
  destruct (Z.ltb_spec (x - originX a W s l) 0) as [|X0]; [discriminate|].
  destruct (nth_error l _) as [c'|] eqn:NC; [|discriminate]. clear E.
  assert (N1 := proj1 (nth_error_Some ls _) ltac:(rewrite NL; discriminate)). assert (N2 := proj1 (nth_error_Some l _) ltac:(rewrite NC; discriminate)).
  pose proof (Z.div_mod (y - originY a H s ls) (16 * s) ltac:(lia)) as D1. pose proof (Z.mod_pos_bound (y - originY a H s ls) (16 * s) ltac:(lia)) as M1.
  pose proof (Z.div_mod (x - originX a W s l) (8 * s) ltac:(lia)) as D2. pose proof (Z.mod_pos_bound (x - originX a W s l) (8 * s) ltac:(lia)) as M2.
  assert (P1 : 0 <= (y - originY a H s ls) / (16 * s)) by (apply Z.div_pos; lia). assert (P2 : 0 <= (x - originX a W s l) / (8 * s)) by (apply Z.div_pos; lia).
  exists l, (originX a W s l + (x - originX a W s l) / (8 * s) * (8 * s)), (originY a H s ls + (y - originY a H s ls) / (16 * s) * (16 * s)).
  split; [apply nth_error_In in NL; exact NL|]. split; [|split; [lia|split; [lia|split; eexists; reflexivity]]].
  unfold spots. apply in_flat_map. exists (Z.to_nat ((y - originY a H s ls) / (16 * s))). split; [apply in_seq; lia|].
  rewrite (nth_error_nth ls _ [] NL). apply in_map_iff. exists (Z.to_nat ((x - originX a W s l) / (8 * s))). split; [rewrite !Z2Nat.id by assumption; reflexivity|apply in_seq; lia].
Qed.
Lemma place_mult : forall w size extent d, w <> Middle -> (d | size) -> (d | extent) -> (d | 16) -> (d | place w size extent).
Proof.
  intros w size extent d M A B C. destruct w; cbn [place]; [exact C|congruence|]. apply Z.divide_sub_r; [apply Z.divide_sub_r; assumption|exact C].
Qed.
Lemma half_open : forall d X n x, 0 < d -> (d | X) -> (d | n) -> X <= x < X + n -> X / d <= x / d < X / d + n / d.
Proof.
  intros d X n x D (p & ->) (q & ->) R. rewrite !Z.div_mul by lia. split; [apply Z.div_le_lower_bound; lia|apply Z.div_lt_upper_bound; lia].
Qed.
(** Text in corners: no colour is left under it. *)
Lemma gray_under_text : forall ss_w ss_h ls a W H s x y, 0 <= ss_w <= 4 -> 0 <= ss_h <= 4 -> 1 <= s -> hSide a <> Middle -> vSide a <> Middle ->
  (2 ^ ss_w | W) -> (2 ^ ss_h | H) -> (2 ^ ss_w | 8 * s) -> charAt ls a W H s x y <> None -> blanked ss_w ss_h s (spots ls a W H s) (x / 2 ^ ss_w) (y / 2 ^ ss_h) = true.
Proof.
  intros ss_w ss_h ls a W H s x y SW SH S1 HM VM WD HD SD CA. destruct (charAt ls a W H s x y) as [((c, gx), gy)|] eqn:E; [|congruence]. clear CA.
  destruct (charAt_spot _ _ _ _ _ _ _ _ _ _ S1 E) as (l & X & Y & IL & IS & RX & RY & (j & EX) & (r & EY)).
  assert (P1 : 0 < 2 ^ ss_w) by (apply Z.pow_pos_nonneg; lia). assert (P2 : 0 < 2 ^ ss_h) by (apply Z.pow_pos_nonneg; lia).
  assert (D16 : forall k, 0 <= k <= 4 -> (2 ^ k | 16)) by (intros k K; exists (2 ^ (4 - k)); rewrite <- Z.pow_add_r by lia; replace (4 - k + k) with 4 by lia; reflexivity).
  assert (DX : (2 ^ ss_w | X)) by (rewrite EX; apply Z.divide_add_r; [apply place_mult; try assumption; [apply Z.divide_mul_r; exact SD|apply D16; lia]|apply Z.divide_mul_r; exact SD]).
  assert (SD2 : (2 ^ ss_h | 16 * s)) by (apply Z.divide_mul_l, D16; lia).
  assert (DY : (2 ^ ss_h | Y)) by (rewrite EY; apply Z.divide_add_r; [apply place_mult; try assumption; [apply Z.divide_mul_r; exact SD2|apply D16; lia]|apply Z.divide_mul_r; exact SD2]).
  unfold blanked. apply existsb_exists. exists (X, Y). split; [exact IS|]. cbn [fst snd]. unfold within.
  pose proof (half_open _ _ _ _ P1 DX SD RX). pose proof (half_open _ _ _ _ P2 DY SD2 RY).
  rewrite !andb_true_iff, !Z.leb_le, !Z.ltb_lt. lia.
Qed.
Lemma pieces_all : forall n l, (1 <= n)%nat -> concat (pieces n l) = l /\ (forall p, In p (pieces n l) -> (length p <= n)%nat).
Proof.
  intros n l N. split; [apply (pieces_concat n (length l)); lia|]. intros p I. unfold pieces in I. apply in_map_iff in I. destruct I as (i & <- & _). rewrite firstn_length. lia.
Qed.
(** Refusals. *)
Lemma text_refused : forall font t a s src, is8to16orFloat (vf_fmt src) = false \/ vf_w src < 32 + 8 * s \/ vf_h src < 32 + 16 * s -> textGetFrame font t a s src = Err.
Proof.
  intros font t a s src R. unfold textGetFrame, margin, characterWidth, characterHeight. destruct (is8to16orFloat (vf_fmt src)); [|reflexivity]. cbn [negb].
  destruct R as [R|R]; [discriminate|]. destruct (Z.ltb_spec (vf_w src) (2 * 16 + 8 * s)); [reflexivity|]. destruct (Z.ltb_spec (vf_h src) (2 * 16 + 16 * s)); [reflexivity|]. lia.
Qed.
Lemma text_args : forall a s a' s', textArgs a s = Ok (a', s') <->
  a' = match a with Some v => v | None => 7 end /\ s' = match s with Some v => v | None => 1 end /\ 1 <= a' <= 9 /\ 1 <= s' <= 65536.
Proof.
  assert (SAT : forall v lo hi, INT_MIN < lo -> hi < INT_MAX -> (lo <= sat32 v <= hi <-> lo <= v <= hi) /\ (lo <= v <= hi -> sat32 v = v)).
  { intros v lo hi A B. unfold sat32. destruct (Z.ltb_spec INT_MAX v); [lia|]. destruct (Z.ltb_spec v INT_MIN); lia. }
  intros a s a' s'. unfold textArgs. change (2 ^ 16) with 65536.
  set (A := match a with Some v => sat32 v | None => 7 end). set (S := match s with Some v => sat32 v | None => 1 end).
  assert (HA : (1 <= A <= 9 <-> 1 <= match a with Some v => v | None => 7 end <= 9) /\ (1 <= A <= 9 -> A = match a with Some v => v | None => 7 end)).
  { subst A. destruct a as [v|]; [|split; lia]. destruct (SAT v 1 9 ltac:(reflexivity) ltac:(reflexivity)) as (Q1 & Q2). split; [exact Q1|]. intros Q. apply Q2, Q1, Q. }
  assert (HS : (1 <= S <= 65536 <-> 1 <= match s with Some v => v | None => 1 end <= 65536) /\ (1 <= S <= 65536 -> S = match s with Some v => v | None => 1 end)).
  { subst S. destruct s as [v|]; [|split; lia]. destruct (SAT v 1 65536 ltac:(reflexivity) ltac:(reflexivity)) as (Q1 & Q2). split; [exact Q1|]. intros Q. apply Q2, Q1, Q. }
  clearbody A S. destruct (Z.ltb_spec A 1); [split; [discriminate|lia]|]. destruct (Z.ltb_spec 9 A); [split; [discriminate|lia]|]. cbn [orb].
  destruct (Z.ltb_spec S 1); [split; [discriminate|lia]|]. destruct (Z.ltb_spec 65536 S); [split; [discriminate|lia]|]. cbn [orb].
  split; [intros E; injection E as <- <-; lia|]. intros (-> & -> & _). destruct HA as (_ & <-); [|lia]. destruct HS as (_ & <-); [|lia]. reflexivity.
Qed.
(** Centred text can leave colour under its last column. *)
Definition yuv420 : vfmt := mkV cfYUV stInteger 8 1 1 1 3.
Lemma yuv420_valid : fmt_valid yuv420.
Proof.
  split; [right; right; reflexivity|]. split; [left; split; [reflexivity|cbn; lia]|].
  split; [split; [left; reflexivity|split; [cbn; lia|cbn; intros b [->|[->| ->]]; lia]]|].
  split; [left; cbn; lia|right; split; [discriminate|reflexivity]].
Qed.
Definition coloured : vframe := mkVF yuv420 42 48 [mkPl 64 (mkB (64 * 48) (fun _ => 50)); mkPl 32 (mkB (32 * 24) (fun _ => 7)); mkPl 32 (mkB (32 * 24) (fun _ => 9))] (fun _ => None).
Lemma coloured_wf : wfFrame 32 coloured.
Proof.
  split; [exact yuv420_valid|]. split; [cbn; lia|]. split; [cbn; lia|]. split; [reflexivity|].
  intros i p E. unfold nthz in E. destruct (Z.ltb_spec i 0); [discriminate|]. assert (C : i = 0 \/ i = 1 \/ i = 2 \/ 2 < i) by lia.
  destruct C as [->|[->|[->|C]]]; [injection E as <-; split; reflexivity..|]. exfalso.
  replace (Z.to_nat i) with (S (S (S (Z.to_nat (i - 3))))) in E by lia. cbn in E. destruct (Z.to_nat (i - 3)); discriminate.
Qed.
Lemma colour_left : exists al font t a s src r x y q, alignment al /\ wfFrame al src /\ zlength font = 4016 /\ Forall (fun c => 0 <= c < 256) t /\ 1 <= a <= 9 /\ 1 <= s /\
  f_cf (vf_fmt src) = cfYUV /\ f_ssw (vf_fmt src) = 1 /\ f_ssh (vf_fmt src) = 1 /\ (2 | vf_w src) /\ (2 | vf_h src) /\
  textGetFrame font t a s src = Ok r /\ charAt (layout t (vf_w src) (vf_h src) s) a (vf_w src) (vf_h src) s x y <> None /\
  planeImg r 1 = Some q /\ i_at q (x / 2) (y / 2) <> neutralS (vf_fmt src).
Proof.
  assert (FL : zlength (repeat 0 (Z.to_nat 4016)) = 4016) by (unfold zlength; rewrite repeat_length; reflexivity).
  destruct (text_frame 32 (repeat 0 (Z.to_nat 4016)) [97] 8 1 coloured (or_introl eq_refl) coloured_wf FL) as (r & E & _ & _ & _ & _ & _ & P).
  { constructor; [lia|constructor]. } { lia. } { lia. } { reflexivity. } { cbn; lia. } { cbn; lia. }
  destruct (P 1 ltac:(cbn; lia)) as (p & q & E1 & E2 & (W & H & G)). injection E1 as <-.
  exists 32, (repeat 0 (Z.to_nat 4016)), [97], 8, 1, coloured, r, 24, 20, q.
  split; [left; reflexivity|]. split; [exact coloured_wf|]. split; [exact FL|]. split; [constructor; [lia|constructor]|]. split; [lia|]. split; [lia|].
  split; [reflexivity|]. split; [reflexivity|]. split; [reflexivity|]. split; [exists 21; reflexivity|]. split; [exists 24; reflexivity|].
  split; [exact E|]. split; [vm_compute; discriminate|]. split; [exact E2|].
  rewrite G.
  - vm_compute. discriminate.
  - rewrite W. vm_compute. split; [discriminate|reflexivity].
  - rewrite H. vm_compute. split; [discriminate|reflexivity].
Qed.
