(** Crop, AddBorders and the flips on whole frames. *)
From Coq Require Import String.
From Coq Require Import ZArith List Lia Bool.
From Verif Require Import Common FormatSpec Format FrameSpec Frame FrameLemmas FrameGeom ImageSpec PlaneMem Spatial
  SpatialLemmas.
Import ListNotations.
Open Scope Z_scope.

(** ** Division by the subsampling factors *)

Definition fac (s : Z) : Z := 2 ^ s.

Lemma shiftr_ssw : forall f x i, fmt_valid f -> Z.shiftr x (ssw f i) = planeW f x i.
Proof. intros. rewrite <- getWidth_planeW by assumption. reflexivity. Qed.
Lemma shiftr_ssh : forall f x i, fmt_valid f -> Z.shiftr x (ssh f i) = planeH f x i.
Proof. intros. rewrite <- getHeight_planeH by assumption. reflexivity. Qed.

Lemma pow_ss : forall s, 0 <= s -> 0 < 2 ^ s.
Proof. intros. apply Z.pow_pos_nonneg; lia. Qed.

Lemma rem_divide : forall x m, 0 < m -> Z.rem x m = 0 -> (m | x).
Proof. intros x m M H. apply Z.rem_divide; [lia | exact H]. Qed.

Lemma planeW_add : forall f x y i, fmt_valid f -> (2 ^ f_ssw f | x) ->
  planeW f (x + y) i = planeW f x i + planeW f y i.
Proof.
  intros f x y i V (q & ->). pose proof (valid_ss f V). pose proof (pow_ss (f_ssw f) ltac:(lia)).
  unfold planeW. destruct (i =? 0); [reflexivity|].
  rewrite Z.div_add_l, Z.div_mul by lia. reflexivity.
Qed.
Lemma planeH_add : forall f x y i, fmt_valid f -> (2 ^ f_ssh f | x) ->
  planeH f (x + y) i = planeH f x i + planeH f y i.
Proof.
  intros f x y i V (q & ->). pose proof (valid_ss f V). pose proof (pow_ss (f_ssh f) ltac:(lia)).
  unfold planeH. destruct (i =? 0); [reflexivity|].
  rewrite Z.div_add_l, Z.div_mul by lia. reflexivity.
Qed.
Lemma planeW_mono : forall f x y i, fmt_valid f -> x <= y -> planeW f x i <= planeW f y i.
Proof.
  intros f x y i V L. pose proof (valid_ss f V). pose proof (pow_ss (f_ssw f) ltac:(lia)).
  unfold planeW. destruct (i =? 0); [assumption|]. apply Z.div_le_mono; lia.
Qed.
Lemma planeH_mono : forall f x y i, fmt_valid f -> x <= y -> planeH f x i <= planeH f y i.
Proof.
  intros f x y i V L. pose proof (valid_ss f V). pose proof (pow_ss (f_ssh f) ltac:(lia)).
  unfold planeH. destruct (i =? 0); [assumption|]. apply Z.div_le_mono; lia.
Qed.

(** ** Crop *)

(** A window inside a picture of [sw] by [sh], aligned to the subsampling. *)
Definition window (f : vfmt) (x y w h sw sh : Z) : Prop :=
  0 <= x /\ 0 <= y /\ 1 <= w /\ 1 <= h /\ x + w <= sw /\ y + h <= sh /\
  (2 ^ f_ssw f | x) /\ (2 ^ f_ssw f | w) /\ (2 ^ f_ssh f | y) /\ (2 ^ f_ssh f | h).

Lemma addI_ok : forall a b, in_int (a + b) -> addI a b = Ok (a + b).
Proof.
  intros a b (A & B). unfold addI, in_intb.
  destruct (Z.leb_spec INT_MIN (a + b)); [|lia]. destruct (Z.leb_spec (a + b) INT_MAX); [reflexivity|lia].
Qed.

Lemma addI_inv : forall a b c, addI a b = Ok c -> c = a + b /\ in_int (a + b).
Proof.
  intros a b c. unfold addI, in_intb, in_int.
  destruct (Z.leb_spec INT_MIN (a + b)); cbn [andb]; [|discriminate].
  destruct (Z.leb_spec (a + b) INT_MAX); [|discriminate]. intros E. injection E as <-. lia.
Qed.

(** The verification accepts exactly the windows when the sums do not overflow. *)
Lemma cropVerify_exact : forall f x y w h sw sh, fmt_valid f -> 1 <= sw -> 1 <= sh ->
  in_int (w + x) -> in_int (h + y) ->
  exists bad, cropVerify x y w h sw sh f = Ok bad /\ (bad = false <-> window f x y w h sw sh).
Proof.
  intros f x y w h sw sh V SW SH IW IH. unfold cropVerify.
  destruct (Z.ltb_spec 0 sh); [|lia]. destruct (Z.ltb_spec 0 sw); [|lia]. cbn [andb].
  rewrite (addI_ok h y IH). cbn [obind].
  assert (E : exists c, (if sh <? h + y then Ok true else obind (addI w x) (fun r => Ok (sw <? r))) = Ok c
                        /\ (c = false <-> h + y <= sh /\ w + x <= sw)).
  { destruct (Z.ltb_spec sh (h + y)).
    - exists true. split; [reflexivity|]. split; [discriminate|lia].
    - rewrite (addI_ok w x IW). cbn [obind]. eexists. split; [reflexivity|]. rewrite Z.ltb_ge. lia. }
  destruct E as (c & -> & C). cbn [obind]. eexists. split; [reflexivity|].
  pose proof (valid_ss f V) as (SS1 & SS2).
  pose proof (pow_ss (f_ssw f) ltac:(lia)) as PW. pose proof (pow_ss (f_ssh f) ltac:(lia)) as PH.
  rewrite !orb_false_iff, !negb_false_iff, !Z.eqb_eq, !Z.ltb_ge, !Z.leb_gt, C.
  rewrite !Z.rem_divide by lia. unfold window.
  split; intros Q; repeat (match goal with H : _ /\ _ |- _ => destruct H end); repeat split; auto; lia.
Qed.

(** Without any assumption: when it accepts without overflowing, it is a window. *)
Lemma cropVerify_sound : forall f x y w h sw sh, fmt_valid f -> 1 <= sw -> 1 <= sh ->
  cropVerify x y w h sw sh f = Ok false -> window f x y w h sw sh.
Proof.
  intros f x y w h sw sh V SW SH E.
  assert (I : in_int (h + y) /\ in_int (w + x)).
  { unfold cropVerify in E.
    destruct (Z.ltb_spec 0 sh); [|lia]. destruct (Z.ltb_spec 0 sw); [|lia]. cbn [andb] in E.
    destruct (addI h y) as [b| |] eqn:E1; cbn [obind] in E; try discriminate.
    apply addI_inv in E1. destruct (Z.ltb_spec sh b).
    - cbn [obind] in E. rewrite !orb_true_r in E. discriminate.
    - destruct (addI w x) as [r| |] eqn:E2; cbn [obind] in E; try discriminate.
      apply addI_inv in E2. tauto. }
  destruct (cropVerify_exact f x y w h sw sh V SW SH (proj2 I) (proj1 I)) as (bad & Eb & B).
  rewrite E in Eb. injection Eb as <-. apply B. reflexivity.
Qed.

(** What a relative crop asks for. *)
Lemma subI_inv : forall a b c, subI a b = Ok c -> c = a - b.
Proof. intros a b c E. unfold subI in E. destruct (in_intb (a - b)); [|discriminate]. injection E as <-. reflexivity. Qed.
Lemma cropRel_inv : forall vi l r t b d vo, fmt_valid (vi_fmt vi) -> cropRelCreate vi l r t b = Ok (d, vo) ->
  let w := vi_w vi - optI l - optI r in let h := vi_h vi - optI t - optI b in
  vi_fmt vo = vi_fmt vi /\ vi_n vo = vi_n vi /\ vi_w vo = w /\ vi_h vo = h /\
  window (vi_fmt vi) (optI l) (optI t) w h (vi_w vi) (vi_h vi) /\
  d = Some (mkCD (optI l) (optI t) w h) \/
  d = None /\ vo = vi /\ optI l = 0 /\ optI t = 0 /\ optI r = 0 /\ optI b = 0.
Proof.
  intros vi l r t b d vo V E. unfold cropRelCreate in E.
  destruct (constantFormat vi) eqn:CF; cbn [negb] in E; [|discriminate].
  unfold constantFormat in CF. rewrite !andb_true_iff, !Z.ltb_lt in CF.
  destruct (subI (vi_h vi) (optI t)) as [h0| |] eqn:E1; unfold obind in E; try discriminate. apply subI_inv in E1.
  destruct (subI h0 (optI b)) as [h| |] eqn:E2; try discriminate. apply subI_inv in E2.
  destruct (subI (vi_w vi) (optI l)) as [w0| |] eqn:E3; try discriminate. apply subI_inv in E3.
  destruct (subI w0 (optI r)) as [w| |] eqn:E4; try discriminate. apply subI_inv in E4.
  destruct ((optI l =? 0) && (optI t =? 0) && (w =? vi_w vi) && (h =? vi_h vi)) eqn:C.
  - right. injection E as <- <-. rewrite !andb_true_iff, !Z.eqb_eq in C. repeat split; lia.
  - left. destruct (cropVerify (optI l) (optI t) w h (vi_w vi) (vi_h vi) (vi_fmt vi)) as [bad| |] eqn:CV; try discriminate.
    destruct bad; [discriminate|]. injection E as <- <-. cbn [vi_fmt vi_w vi_h vi_n].
    replace (vi_w vi - optI l - optI r) with w by lia. replace (vi_h vi - optI t - optI b) with h by lia.
    split; [reflexivity|]. split; [reflexivity|]. split; [reflexivity|]. split; [reflexivity|].
    split; [apply cropVerify_sound; [exact V | lia | lia | exact CV]|]. reflexivity.
Qed.

Lemma crop_frame : forall al g x y w h src, isAl al -> wfFrame al src ->
  window (vf_fmt src) x y w h (vf_w src) (vf_h src) -> in_int (vf_w src) -> in_int (vf_h src) ->
  exists r, cropGetFrame al g x y w h src = Ok r /\ wfFrame al r /\
    vf_fmt r = vf_fmt src /\ vf_w r = w /\ vf_h r = h /\
    vf_props r = swapFields (Z.odd y) (vf_props src) /\
    planesMap (fun i => crop (planeW (vf_fmt src) x i) (planeH (vf_fmt src) y i)
                             (planeW (vf_fmt src) w i) (planeH (vf_fmt src) h i)) src r.
Proof.
  intros al g x y w h src A WF WIN (IW1 & IW2) (IH1 & IH2). pose proof WF as (V & SW & SH & _).
  pose proof WIN as (X & Y & W & H & XW & YH & DX & DW & DY & DH).
  destruct (cropVerify_exact (vf_fmt src) x y w h (vf_w src) (vf_h src) V SW SH) as (bad & Eb & B).
  { unfold in_int, INT_MIN in *. lia. } { unfold in_int, INT_MIN in *. lia. }
  assert (bad = false) by (apply B; exact WIN). subst bad.
  unfold cropGetFrame. rewrite Eb. cbn [obind].
  destruct (newFrame_spec al g (vf_fmt src) w h (vf_props src) A V W H) as (dst & En & WD & F1 & F2 & F3 & F4).
  rewrite En. cbn [obind].
  destruct (onPlanes_spec al src dst (cropPlane x y w (vf_fmt src) h)
     (fun i => crop (planeW (vf_fmt src) x i) (planeH (vf_fmt src) y i)
                    (planeW (vf_fmt src) w i) (planeH (vf_fmt src) h i)) A WF WD) as (r & Er & WR & R1 & R2 & R3 & R4 & R5);
    [rewrite F1; reflexivity | rewrite F1; reflexivity | |].
  - intros i p q I Wp Wq Sp Sq. unfold cropPlane.
    rewrite !shiftr_ssw, shiftr_ssh, getHeight_planeH by exact V.
    rewrite F1, F2, F3 in *. apply crop_plane.
    + apply valid_bytes; exact V.
    + exact Wp.
    + exact Wq.
    + apply planeW_bounds; [exact V|lia].
    + apply planeH_bounds; [exact V|lia].
    + rewrite <- planeW_add by assumption. apply planeW_mono; [exact V|lia].
    + rewrite <- planeH_add by assumption. apply planeH_mono; [exact V|lia].
  - rewrite Er. cbn [obind]. eexists. split; [reflexivity|]. cbn [vf_fmt vf_w vf_h vf_props vf_planes].
    split; [exact WR|]. split; [congruence|]. split; [congruence|]. split; [congruence|]. split; [congruence|].
    intros i I. destruct (R5 i I) as (a & b & Ra & Rb & Sab). exists a, b. auto.
Qed.

(** ** AddBorders *)

Definition borders (f : vfmt) (l r t b : Z) : Prop :=
  0 <= l /\ 0 <= r /\ 0 <= t /\ 0 <= b /\
  (2 ^ f_ssw f | l) /\ (2 ^ f_ssw f | r) /\ (2 ^ f_ssh f | t) /\ (2 ^ f_ssh f | b).

Lemma addBordersVerify_exact : forall f l r t b, fmt_valid f ->
  addBordersVerify l r t b f = false <->
  (2 ^ f_ssw f | l) /\ (2 ^ f_ssw f | r) /\ (2 ^ f_ssh f | t) /\ (2 ^ f_ssh f | b).
Proof.
  intros f l r t b V. unfold addBordersVerify.
  pose proof (valid_ss f V) as (SS1 & SS2).
  pose proof (pow_ss (f_ssw f) ltac:(lia)) as PW. pose proof (pow_ss (f_ssh f) ltac:(lia)) as PH.
  rewrite !orb_false_iff, !negb_false_iff, !Z.eqb_eq. rewrite !Z.rem_divide by lia. tauto.
Qed.

Lemma bytes_cases : forall f, fmt_valid f -> f_bytes f = 1 \/ f_bytes f = 2 \/ f_bytes f = 4.
Proof. intros f (_ & _ & (B & _) & _). exact B. Qed.

(** Alignments used by the core (32 or 64, see VSFrame::alignment) are multiples of 4. *)
Lemma stride_mult : forall al f w i, isAl al -> 4 <= al -> fmt_valid f -> (f_bytes f | strideOf al f w i).
Proof.
  intros al f w i (n & -> & N) A4 V. unfold strideOf. apply Z.divide_trans with (2 ^ n).
  - assert (2 <= n). { destruct (Z.le_gt_cases 2 n); [assumption|]. assert (n = 0 \/ n = 1) by lia.
      destruct H0; subst n; cbn in A4; lia. }
    replace n with (2 + (n - 2)) by lia. rewrite Z.pow_add_r by lia.
    destruct (bytes_cases f V) as [->|[->| ->]]; apply Z.divide_mul_l.
    + exists 4; reflexivity.
    + exists 2; reflexivity.
    + exists 1; reflexivity.
  - apply ceilTo_bounds. apply pow_ss. lia.
Qed.

Lemma border_frame : forall al g l r t b colour src, isAl al -> 4 <= al -> wfFrame al src ->
  borders (vf_fmt src) l r t b ->
  in_int (vf_w src + l + r) -> in_int (vf_h src + t + b) ->
  (forall i, 0 <= i < f_np (vf_fmt src) -> 0 <= colour i < 256 ^ f_bytes (vf_fmt src)) ->
  exists o, addBordersGetFrame al g l r t b colour src = Ok o /\ wfFrame al o /\
    vf_fmt o = vf_fmt src /\ vf_w o = vf_w src + l + r /\ vf_h o = vf_h src + t + b /\
    vf_props o = swapFields (Z.odd t) (vf_props src) /\
    planesMap (fun i => pad (planeW (vf_fmt src) l i) (planeW (vf_fmt src) r i)
                            (planeH (vf_fmt src) t i) (planeH (vf_fmt src) b i) (colour i)) src o.
Proof.
  intros al g l r t b colour src A A4 WF (L & R & T & B & DL & DR & DT & DB) IW IH COL.
  pose proof WF as (V & SW & SH & _).
  unfold addBordersGetFrame. rewrite (proj2 (addBordersVerify_exact (vf_fmt src) l r t b V)) by tauto.
  rewrite (addI_ok (vf_w src) l) by (unfold in_int, INT_MIN in *; lia). cbn [obind].
  rewrite (addI_ok (vf_w src + l) r) by exact IW. cbn [obind].
  rewrite (addI_ok (vf_h src) t) by (unfold in_int, INT_MIN in *; lia). cbn [obind].
  rewrite (addI_ok (vf_h src + t) b) by exact IH. cbn [obind].
  destruct (newFrame_spec al g (vf_fmt src) (vf_w src + l + r) (vf_h src + t + b) (vf_props src) A V
              ltac:(lia) ltac:(lia)) as (dst & En & WD & F1 & F2 & F3 & F4).
  rewrite En. cbn [obind].
  destruct (onPlanes_spec al src dst (addBordersPlane l r t b colour (vf_fmt src) (vf_w src) (vf_h src))
     (fun i => pad (planeW (vf_fmt src) l i) (planeW (vf_fmt src) r i)
                   (planeH (vf_fmt src) t i) (planeH (vf_fmt src) b i) (colour i)) A WF WD)
    as (o & Er & WR & R1 & R2 & R3 & R4 & R5);
    [rewrite F1; reflexivity | rewrite F1; reflexivity | |].
  - intros i p q I Wp Wq Sp Sq. unfold addBordersPlane. cbv zeta.
    rewrite !shiftr_ssw, !shiftr_ssh, getHeight_planeH, getWidth_planeW by exact V.
    rewrite F1, F2, F3 in *.
    replace (vf_w src + l + r) with (l + (r + vf_w src)) in * by ring.
    replace (vf_h src + t + b) with (t + (b + vf_h src)) in * by ring.
    rewrite !planeW_add, !planeH_add in * by assumption.
    replace (planeW (vf_fmt src) l i + (planeW (vf_fmt src) r i + planeW (vf_fmt src) (vf_w src) i))
      with (planeW (vf_fmt src) l i + planeW (vf_fmt src) (vf_w src) i + planeW (vf_fmt src) r i) in * by ring.
    replace (planeH (vf_fmt src) t i + (planeH (vf_fmt src) b i + planeH (vf_fmt src) (vf_h src) i))
      with (planeH (vf_fmt src) t i + planeH (vf_fmt src) (vf_h src) i + planeH (vf_fmt src) b i) in * by ring.
    apply border_plane.
    + apply valid_bytes; exact V.
    + apply planeW_bounds; [exact V|lia].
    + apply planeW_bounds; [exact V|lia].
    + apply planeH_bounds; [exact V|lia].
    + apply planeH_bounds; [exact V|lia].
    + apply COL. exact I.
    + rewrite Sq. apply stride_mult; assumption.
    + exact Wp.
    + exact Wq.
  - rewrite Er. cbn [obind]. eexists. split; [reflexivity|]. cbn [vf_fmt vf_w vf_h vf_props vf_planes].
    split; [exact WR|]. split; [congruence|]. split; [congruence|]. split; [congruence|]. split; [congruence|].
    intros i I. destruct (R5 i I) as (a & b' & Ra & Rb & Sab). exists a, b'. auto.
Qed.

(** ** Flips *)

Lemma flipV_frame : forall al g src, isAl al -> wfFrame al src ->
  exists r, flipVGetFrame al g src = Ok r /\ wfFrame al r /\
    vf_fmt r = vf_fmt src /\ vf_w r = vf_w src /\ vf_h r = vf_h src /\ vf_props r = vf_props src /\
    planesMap (fun _ => flipV) src r.
Proof.
  intros al g src A WF. pose proof WF as (V & SW & SH & _). unfold flipVGetFrame.
  destruct (newFrame_spec al g (vf_fmt src) (vf_w src) (vf_h src) (vf_props src) A V SW SH)
    as (dst & En & WD & F1 & F2 & F3 & F4).
  rewrite En. cbn [obind].
  destruct (onPlanes_spec al src dst (flipVPlane (vf_fmt src) (vf_w src) (vf_h src)) (fun _ => flipV) A WF WD)
    as (r & Er & WR & R1 & R2 & R3 & R4 & R5);
    [rewrite F1; reflexivity | rewrite F1; reflexivity | |].
  - intros i p q I Wp Wq Sp Sq. unfold flipVPlane.
    rewrite getHeight_planeH, getWidth_planeW by exact V. rewrite F1, F2, F3 in *.
    apply flipV_plane; [apply valid_bytes; exact V | exact Wp | exact Wq].
  - exists r. split; [exact Er|]. split; [exact WR|]. split; [congruence|]. split; [congruence|].
    split; [congruence|]. split; [congruence|]. exact R5.
Qed.

Lemma flipH_frame : forall al g turn src, isAl al -> wfFrame al src ->
  exists r, flipHGetFrame al g turn src = Ok r /\ wfFrame al r /\
    vf_fmt r = vf_fmt src /\ vf_w r = vf_w src /\ vf_h r = vf_h src /\ vf_props r = vf_props src /\
    planesMap (fun _ => if turn then rot180 else flipH) src r.
Proof.
  intros al g turn src A WF. pose proof WF as (V & SW & SH & _). unfold flipHGetFrame.
  destruct (newFrame_spec al g (vf_fmt src) (vf_w src) (vf_h src) (vf_props src) A V SW SH)
    as (dst & En & WD & F1 & F2 & F3 & F4).
  rewrite En. cbn [obind].
  destruct (onPlanes_spec al src dst (flipHPlane turn (vf_fmt src) (vf_w src) (vf_h src))
              (fun _ => if turn then rot180 else flipH) A WF WD)
    as (r & Er & WR & R1 & R2 & R3 & R4 & R5);
    [rewrite F1; reflexivity | rewrite F1; reflexivity | |].
  - intros i p q I Wp Wq Sp Sq. unfold flipHPlane. cbv zeta.
    rewrite getHeight_planeH, getWidth_planeW by exact V. rewrite F1, F2, F3 in *.
    assert (KK : ((f_bytes (vf_fmt src) =? 1) || (f_bytes (vf_fmt src) =? 2) || (f_bytes (vf_fmt src) =? 4)) = true).
    { destruct (bytes_cases (vf_fmt src) V) as [->|[->| ->]]; reflexivity. }
    rewrite KK.
    apply flipH_plane; [apply valid_bytes; exact V | exact Wp | exact Wq].
  - exists r. split; [exact Er|]. split; [exact WR|]. split; [congruence|]. split; [congruence|].
    split; [congruence|]. split; [congruence|]. exact R5.
Qed.

(** ** Composition *)

(** Operations that respect [same]. *)
Definition proper (R : image -> image) : Prop := forall a b, same a b -> same (R a) (R b).

Lemma planesMap_comp : forall (R S : Z -> image -> image) a b c,
  (forall i, proper (S i)) -> f_np (vf_fmt b) = f_np (vf_fmt c) ->
  planesMap R a b -> planesMap S b c -> planesMap (fun i x => S i (R i x)) a c.
Proof.
  intros R S a b c PS N H1 H2 i I. destruct (H1 i ltac:(lia)) as (x & y & Ax & By & Sy).
  destruct (H2 i I) as (y' & z & By' & Cz & Sz). rewrite By in By'. injection By' as <-.
  exists x, z. split; [exact Ax|]. split; [exact Cz|]. apply (same_trans _ _ _ Sz). apply PS. exact Sy.
Qed.

Lemma planesMap_weaken : forall (R S : Z -> image -> image) a b,
  (forall i x, planeImg a i = Some x -> same (R i x) (S i x)) ->
  planesMap R a b -> planesMap S a b.
Proof.
  intros R S a b H P i I. destruct (P i I) as (x & y & Ax & By & Sy). exists x, y.
  split; [exact Ax|]. split; [exact By|]. apply (same_trans _ _ _ Sy). apply H. exact Ax.
Qed.

Lemma flipV_proper : proper flipV.
Proof.
  intros a b (W & H & E). split; [exact W|]. split; [exact H|]. cbn [flipV i_w i_h i_at]. intros x y X Y.
  rewrite <- H. apply E; lia.
Qed.
Lemma flipH_proper : proper flipH.
Proof.
  intros a b (W & H & E). split; [exact W|]. split; [exact H|]. cbn [flipH i_w i_h i_at]. intros x y X Y.
  rewrite <- W. apply E; lia.
Qed.
Lemma rot180_proper : proper rot180.
Proof.
  intros a b (W & H & E). split; [exact W|]. split; [exact H|]. cbn [rot180 i_w i_h i_at]. intros x y X Y.
  rewrite <- W, <- H. apply E; lia.
Qed.
Lemma transposed_proper : proper transposed.
Proof.
  intros a b (W & H & E). split; [exact H|]. split; [exact W|]. cbn [transposed i_w i_h i_at]. intros x y X Y.
  apply E; lia.
Qed.
Lemma rot90_proper : proper rot90.
Proof.
  intros a b (W & H & E). split; [exact H|]. split; [exact W|]. cbn [rot90 i_w i_h i_at]. intros x y X Y.
  rewrite <- H. apply E; lia.
Qed.
Lemma rot270_proper : proper rot270.
Proof.
  intros a b (W & H & E). split; [exact H|]. split; [exact W|]. cbn [rot270 i_w i_h i_at]. intros x y X Y.
  rewrite <- W. apply E; lia.
Qed.

(** ** Laws of pictures *)

Ltac pic := split; [cbn; lia|split; [cbn; lia|]]; cbn [flipV flipH rot180 rot90 rot270 transposed i_w i_h i_at];
  intros x y X Y; try reflexivity; f_equal; lia.

Lemma flipV_flipV : forall a, same (flipV (flipV a)) a. Proof. intros a. pic. Qed.
Lemma flipH_flipH : forall a, same (flipH (flipH a)) a. Proof. intros a. pic. Qed.
Lemma rot180_rot180 : forall a, same (rot180 (rot180 a)) a. Proof. intros a. pic. Qed.
Lemma rot180_flips : forall a, same (rot180 a) (flipV (flipH a)). Proof. intros a. pic. Qed.
Lemma transposed_twice : forall a, same (transposed (transposed a)) a. Proof. intros a. pic. Qed.
Lemma rot90_rot270 : forall a, same (rot90 (rot270 a)) a. Proof. intros a. pic. Qed.
Lemma rot270_rot90 : forall a, same (rot270 (rot90 a)) a. Proof. intros a. pic. Qed.
Lemma rot90_twice : forall a, same (rot90 (rot90 a)) (rot180 a). Proof. intros a. pic. Qed.
Lemma rot90_flipH : forall a, same (rot90 a) (flipH (transposed a)). Proof. intros a. pic. Qed.
Lemma rot270_flipV : forall a, same (rot270 a) (flipV (transposed a)). Proof. intros a. pic. Qed.
Lemma flipV_transposed : forall a, same (transposed (flipV a)) (flipH (transposed a)). Proof. intros a. pic. Qed.

Lemma crop_pad : forall l r t b c a, 0 <= l -> 0 <= r -> 0 <= t -> 0 <= b ->
  same (crop l t (i_w a) (i_h a) (pad l r t b c a)) a.
Proof.
  intros l r t b c a L R T B. split; [reflexivity|]. split; [reflexivity|].
  cbn [crop pad i_w i_h i_at]. intros x y X Y.
  destruct (Z.leb_spec l (l + x)); [|lia]. destruct (Z.ltb_spec (l + x) (l + i_w a)); [|lia].
  destruct (Z.leb_spec t (t + y)); [|lia]. destruct (Z.ltb_spec (t + y) (t + i_h a)); [|lia].
  cbn [andb]. f_equal; lia.
Qed.

Lemma crop_proper : forall x y w h a b, 0 <= x -> 0 <= y -> x + w <= i_w a -> y + h <= i_h a ->
  same a b -> same (crop x y w h a) (crop x y w h b).
Proof.
  intros x y w h a b X Y XW YH (W & H & E). split; [reflexivity|]. split; [reflexivity|].
  cbn [crop i_w i_h i_at]. intros u v U V. apply E; lia.
Qed.

(** Cropping a crop is one crop. *)
Lemma crop_crop : forall x y w h x' y' w' h' a,
  same (crop x' y' w' h' (crop x y w h a)) (crop (x + x') (y + y') w' h' a).
Proof.
  intros. split; [reflexivity|]. split; [reflexivity|]. cbn [crop i_w i_h i_at]. intros u v U V. f_equal; lia.
Qed.
