(** Vector and scalar kernels on whole planes. *)
From Coq Require Import ZArith List Lia Bool.
From Coq Require Import SpecFloat.
From Verif Require Import Common FormatSpec Format Frame FrameFacts ImageSpec PlaneMem Spatial SpatialLemmas PixelSpec Pixel PixelLemmas Lut LutLemmas LutFrames Soft SoftLe GenericSpec Generic GenericLemmas
  GenericMedian GenericOps GenericPlanes GenericFloat GenericFrames Simd
  GenericSimd GenericSimdLanes GenericSimdFloat GenericSimdOps GenericSimdEdges GenericSimdRows.
Import Soft ListNotations.
Open Scope Z_scope.

(** As [filter3x3_spec], but the operation need only succeed where it is applied. *)
Lemma filter3x3_at : forall k maxval op F src w h dst, smallk k -> 0 <= maxval < 256 ^ k -> 1 <= w < 2 ^ 31 -> 1 <= h < 2 ^ 31 ->
  wfPlane k src w h -> wfPlane k dst w h -> let a := imageOf k src w h in
  (forall x y, 0 <= x < w -> 0 <= y < h -> op (around a x y) = Ok (F x y) /\ 0 <= F x y < 256 ^ k) ->
  exists m, filter3x3 k maxval op src w h dst = Ok m /\ b_size m = b_size (p_buf dst) /\
    same (imageOf k (mkPl (p_stride dst) m) w h) (mkI w h (fun x y => Z.min (F x y) maxval)).
Proof.
  intros k maxval op F src w h dst K M W H WS WD a OP. assert (K1 : 1 <= k) by (destruct K; lia).
  unfold filter3x3. apply paintRows_spec; [exact K1 | exact WD | | ].
  - intros y Y. split; [|apply columns_covered; apply segs3x3_columns; lia].
    set (R0 := if y =? 0 then 0 else y - 1).
    set (R2 := if y =? wrapu32 (h - 1) then wrapu32 (h - 1) else y + 1).
    assert (E0 : R0 = edge h (y + -1)) by (subst R0; unfold edge; destruct (Z.eqb_spec y 0); lia).
    assert (E2 : R2 = edge h (y + 1)) by (subst R2; unfold edge; rewrite wrapu32_id by lia; destruct (Z.eqb_spec y (h - 1)); lia).
    assert (E1 : y = edge h (y + 0)) by (unfold edge; lia).
    assert (PX : forall x ca cb cc, 0 <= x < w -> ca = edge w (x + -1) -> cb = edge w (x + 0) -> cc = edge w (x + 1) ->
       obind (nine k src R0 y R2 ca cb cc) (fun l => obind (op l) (fun v => Ok (limitS k maxval v))) = Ok (Z.min (F x y) maxval)).
    { intros x ca cb cc X -> -> ->. rewrite (nine_spec k src w h) by (first [exact WS | exact Y | lia | rewrite ?E0, ?E2; apply edge_in; lia]).
      assert (AE : map (fun q => i_at (imageOf k src w h) (fst q) (snd q))
         [(edge w (x + -1), R0); (edge w (x + 0), R0); (edge w (x + 1), R0); (edge w (x + -1), y); (edge w (x + 0), y);
          (edge w (x + 1), y); (edge w (x + -1), R2); (edge w (x + 0), R2); (edge w (x + 1), R2)] = around a x y).
      { unfold around, offsets. fold a. cbn [map fst snd]. change (i_w a) with w. change (i_h a) with h. rewrite <- E0, <- E2, <- E1. reflexivity. }
      rewrite AE. unfold obind. destruct (OP x y X Y) as (-> & V). rewrite limitS_spec by auto. reflexivity. }
    unfold segs3x3. fold R0 R2. rewrite (wrapu32_id (w - 1)) by lia.
    apply Forall_app. split; [apply Forall_cons; [|apply Forall_cons; [|apply Forall_nil]]|].
    + split; [lia|]. split; [lia|]. intros x X. apply PX; unfold edge; try lia. destruct (Z.ltb_spec 1 w); lia.
    + split; [lia|]. split; [lia|]. intros x X. apply PX; unfold edge; lia.
    + destruct (Z.ltb_spec 1 w); [|apply Forall_nil]. apply Forall_cons; [|apply Forall_nil].
      split; [lia|]. split; [lia|]. intros x X. apply PX; unfold edge; lia.
  - intros x y X Y. destruct (OP x y X Y) as (_ & V). lia.
Qed.

(** The register size in bytes divides the distance between rows. *)
Definition aligned (B : backend) (p : plane) : Prop := p_stride p mod (16 * Z.of_nat (be_nb B)) = 0.
Definition within (k maxval : Z) (p : plane) (w h : Z) : Prop :=
  forall x y, 0 <= x < w -> 0 <= y < h -> 0 <= i_at (imageOf k p w h) x y <= maxval.

Lemma reg_bytes : forall B k, smallk k -> lanes B k * k = 16 * Z.of_nat (be_nb B).
Proof. intros B k [->| ->]; unfold lanes; cbn [Z.eqb Pos.eqb]; lia. Qed.

Lemma around_upTo : forall k maxval p w h x y, 1 <= w -> 1 <= h -> within k maxval p w h -> upTo maxval (around (imageOf k p w h) x y).
Proof.
  intros k maxval p w h x y W H V. unfold upTo, around. rewrite Forall_map, Forall_forall. intros d _. apply V; apply edge_in; cbn [imageOf i_w i_h]; lia.
Qed.

(** A vector kernel whose lanes agree with the scalar operation at every sample. *)
Lemma same_kernel : forall B k maxval opv L ops src w h dst, known B -> smallk k -> 0 <= maxval < 256 ^ k -> 1 <= w < 2 ^ 31 -> 1 <= h < 2 ^ 31 ->
  wfPlane k src w h -> wfPlane k dst w h -> aligned B src -> aligned B dst ->
  laneWise (nlanes B k) opv L ->
  (forall x y, 0 <= x < w -> 0 <= y < h -> agrees k maxval L ops (around (imageOf k src w h) x y)) ->
  exists mv ms, filterV B k opv src w h dst = Ok mv /\ filter3x3 k maxval ops src w h dst = Ok ms /\ b_size mv = b_size (p_buf dst) /\ b_size ms = b_size (p_buf dst) /\
    same (imageOf k (mkPl (p_stride dst) mv) w h) (imageOf k (mkPl (p_stride dst) ms) w h).
Proof.
  intros B k maxval opv L ops src w h dst KB K M W H WS WD AS AD LW AG. set (a := imageOf k src w h) in *.
  assert (RL : forall x y, 0 <= x < w -> 0 <= y < h -> 0 <= L (around a x y) < 256 ^ k).
  { intros x y X Y. destruct (AG x y X Y) as (v & _ & R & ->). lia. }
  unfold aligned in AS, AD. rewrite <- (reg_bytes B k K) in AS, AD.
  destruct (filterV_spec B k src w h KB K W H WS AS opv L dst LW WD AD RL) as (mv & EV & SV & IV).
  destruct (filter3x3_at k maxval ops (fun x y => match ops (around a x y) with Ok v => v | _ => 0 end) src w h dst K M W H WS WD) as (ms & ES & SS & IS).
  { intros x y X Y. fold a. destruct (AG x y X Y) as (v & E & R & _). rewrite E. split; [reflexivity | exact R]. }
  exists mv, ms. split; [exact EV|]. split; [exact ES|]. split; [exact SV|]. split; [exact SS|].
  destruct IV as (V1 & V2 & V3), IS as (S1 & S2 & S3). split; [rewrite V1, S1; reflexivity|]. split; [rewrite V2, S2; reflexivity|].
  intros x y X Y. cbn [imageOf i_w i_h] in X, Y. rewrite V3, S3 by assumption. cbn [local i_at]. fold a.
  destruct (AG x y X Y) as (v & E & _ & ->). rewrite E. reflexivity.
Qed.

Lemma lw_byte : forall B op L, laneWise (16 * be_nb B) op L -> laneWise (nlanes B 1) op L.
Proof. intros B op L H. rewrite lanes_nat by (left; reflexivity). exact H. Qed.
Lemma lw_word : forall B op L, laneWise (8 * be_nb B) op L -> laneWise (nlanes B 2) op L.
Proof. intros B op L H. rewrite lanes_nat by (right; reflexivity). exact H. Qed.

(** Gradients and sums that stay inside int32_t. *)
Definition quiet (op : gop) (p : gparams) (l : list Z) : Prop :=
  match op with
  | OpPrewitt => calm (gradAt false p l)
  | OpSobel => calm (gradAt true p l)
  | OpConv _ => calm (convAt p l)
  | _ => True
  end.

Lemma kernels_agree : forall B op vi a d t0 src w h dst, known B -> fmt_valid (vi_fmt vi) -> genericCreate op vi a = Ok d ->
  let k := f_bytes (vi_fmt vi) in let p := gd_params d in
  opV B op k p <> None -> 1 <= w < 2 ^ 31 -> 1 <= h < 2 ^ 31 ->
  wfPlane k src w h -> wfPlane k dst w h -> aligned B src -> aligned B dst -> within k (2 ^ f_bits (vi_fmt vi) - 1) src w h ->
  (forall x y, 0 <= x < w -> 0 <= y < h -> quiet op p (around (imageOf k src w h) x y)) ->
  exists mv ms, kernelV B op k p src w h dst = Ok mv /\ kernelOf op k p t0 src w h dst = Ok ms /\ b_size mv = b_size (p_buf dst) /\ b_size ms = b_size (p_buf dst) /\
    same (imageOf k (mkPl (p_stride dst) mv) w h) (imageOf k (mkPl (p_stride dst) ms) w h).
Proof.
  intros B op vi a d t0 src w h dst KB V CR k p OV W H WS WD AS AD WI QU. pose proof (create_inv op vi a d V CR) as C.
  destruct (bytes_of _ V) as (B1 & B2 & B3 & B4). destruct C as [C1 C2 C3 C4 C5 C6 C7 C8 C9 C10 C11 C12].
  fold p in C6, C8, C9, C10, C11. fold k in B1, B2, B3. specialize (B3 C4).
  assert (K : smallk k) by (unfold smallk; lia). pose proof (smallk_pow k K) as PK.
  rewrite <- C6 in WI.
  assert (MX : 0 <= g_maxval p < 256 ^ k).
  { rewrite C6. assert (2 ^ 8 <= 2 ^ f_bits (vi_fmt vi)) by (apply Z.pow_le_mono_r; lia).
    assert (2 ^ f_bits (vi_fmt vi) <= 2 ^ (8 * k)) by (apply Z.pow_le_mono_r; lia). rewrite Z.pow_mul_r in * by (unfold smallk in K; lia). change (2 ^ 8) with 256 in *. lia. }
  assert (M1 : k = 1 -> g_maxval p = 255).
  { intros Q. rewrite C6. rewrite Q in *. replace (f_bits (vi_fmt vi)) with 8 by lia. reflexivity. }
  assert (TH : isThresholded op = true -> 0 <= g_th p < 256 ^ k).
  { intros Q. specialize (C8 Q). apply thresholdOf_range in C8; [|lia]. rewrite C6 in MX. lia. }
  assert (UP : forall x y, upTo (g_maxval p) (around (imageOf k src w h) x y)) by (intros; apply around_upTo; [lia | lia | exact WI]).
  assert (LN : forall x y, zlength (around (imageOf k src w h) x y) = 9) by (intros; apply around_length).
  assert (GO : forall opv L ops, laneWise (nlanes B k) opv L ->
     (forall x y, 0 <= x < w -> 0 <= y < h -> agrees k (g_maxval p) L ops (around (imageOf k src w h) x y)) ->
     exists mv ms, filterV B k opv src w h dst = Ok mv /\ filter3x3 k (g_maxval p) ops src w h dst = Ok ms /\ b_size mv = b_size (p_buf dst) /\ b_size ms = b_size (p_buf dst) /\
       same (imageOf k (mkPl (p_stride dst) mv) w h) (imageOf k (mkPl (p_stride dst) ms) w h)).
  { intros opv L ops LW AG. apply (same_kernel B k (g_maxval p) opv L ops); assumption. }
  clear WS WD AS AD WI V CR B1 B2 B3 B4 C1 C2 C3 C4 C5 C6 C7 C8 C9 C12. unfold kernelV.
  destruct op as [ | | | | | | |t]; cbn [opV kernelOf isGradient isThresholded quiet] in *.
  - destruct (C10 eq_refl) as (SC & _). destruct K as [Q|Q]; rewrite Q in *; cbn [Z.eqb Pos.eqb].
    + apply (GO _ (gradByteL false p)); [apply lw_byte; apply grad_byte_lanes; exact KB|]. intros x y X Y. apply grad_byte_op; auto.
    + apply (GO _ (gradWordL B false p)); [apply lw_word; apply grad_word_lanes; exact KB|]. intros x y X Y. apply grad_word_op; auto.
  - destruct (C10 eq_refl) as (SC & _). destruct K as [Q|Q]; rewrite Q in *; cbn [Z.eqb Pos.eqb].
    + apply (GO _ (gradByteL true p)); [apply lw_byte; apply grad_byte_lanes; exact KB|]. intros x y X Y. apply grad_byte_op; auto.
    + apply (GO _ (gradWordL B true p)); [apply lw_word; apply grad_word_lanes; exact KB|]. intros x y X Y. apply grad_word_op; auto.
  - specialize (TH eq_refl). destruct K as [Q|Q]; rewrite Q in *; cbn [Z.eqb Pos.eqb].
    + apply (GO _ (minMaxByteL false p)); [apply lw_byte; apply minmax_byte_lanes; exact KB|]. intros x y X Y. apply minmax_byte_op; auto.
    + apply (GO _ (minMaxWordL B false p)); [apply lw_word; apply minmax_word_lanes; exact KB|]. intros x y X Y. apply minmax_word_op; auto.
  - specialize (TH eq_refl). destruct K as [Q|Q]; rewrite Q in *; cbn [Z.eqb Pos.eqb].
    + apply (GO _ (minMaxByteL true p)); [apply lw_byte; apply minmax_byte_lanes; exact KB|]. intros x y X Y. apply minmax_byte_op; auto.
    + apply (GO _ (minMaxWordL B true p)); [apply lw_word; apply minmax_word_lanes; exact KB|]. intros x y X Y. apply minmax_word_op; auto.
  - destruct K as [Q|Q]; rewrite Q in *; cbn [Z.eqb Pos.eqb].
    + apply (GO _ medianByteL); [apply lw_byte; apply median_byte_lanes; exact KB|]. intros x y X Y. apply median_byte_op; auto.
    + apply (GO _ (medianWordL B)); [apply lw_word; apply median_word_lanes; exact KB|]. intros x y X Y. apply median_word_op; auto.
  - specialize (TH eq_refl). destruct K as [Q|Q]; rewrite Q in *; cbn [Z.eqb Pos.eqb].
    + apply (GO _ (flateByteL false p)); [apply lw_byte; apply flate_byte_lanes; exact KB|]. intros x y X Y. apply flate_byte_op; auto.
    + apply (GO _ (flateWordL B false p)); [apply lw_word; apply flate_word_lanes; exact KB|]. intros x y X Y. apply flate_word_op; auto.
  - specialize (TH eq_refl). destruct K as [Q|Q]; rewrite Q in *; cbn [Z.eqb Pos.eqb].
    + apply (GO _ (flateByteL true p)); [apply lw_byte; apply flate_byte_lanes; exact KB|]. intros x y X Y. apply flate_byte_op; auto.
    + apply (GO _ (flateWordL B true p)); [apply lw_word; apply flate_word_lanes; exact KB|]. intros x y X Y. apply flate_word_op; auto.
  - destruct t; try (exfalso; apply OV; reflexivity).
    destruct (C11 _ eq_refl) as (_ & CO & _). destruct (coefsOf_spec _ _ CO) as (LM & _).
    destruct (Z.eqb_spec (g_size p) 9) as [S9|]; [|exfalso; apply OV; reflexivity]. unfold g_size in S9.
    destruct K as [Q|Q]; rewrite Q in *; cbn [Z.eqb Pos.eqb].
    + apply (GO _ (convByteL p)); [apply lw_byte; apply conv_byte_lanes; exact KB|]. intros x y X Y. apply conv_byte_op; auto.
    + apply (GO _ (convWordL B p)); [apply lw_word; apply conv_word_lanes; exact KB|]. intros x y X Y. apply conv_word_op; auto.
Qed.

(** Parameters that keep every gradient and every sum inside int32_t: scales up to 2048,
    divisors not below 1 and biases up to 2^29. *)
Definition mild (op : gop) (p : gparams) : Prop :=
  match op with
  | OpPrewitt | OpSobel => canon (g_scale p) /\ magLe (2 ^ 23) (-12) (g_scale p)
  | OpConv _ => canon (g_div p) /\ magLe (2 ^ 23) (-23) (g_div p) /\ canon (g_bias p) /\ magLe (2 ^ 23) 6 (g_bias p)
  | _ => True
  end.

Lemma kernels_mild : forall B op vi a d t0 src w h dst, known B -> fmt_valid (vi_fmt vi) -> genericCreate op vi a = Ok d ->
  let k := f_bytes (vi_fmt vi) in let p := gd_params d in
  opV B op k p <> None -> 1 <= w < 2 ^ 31 -> 1 <= h < 2 ^ 31 ->
  wfPlane k src w h -> wfPlane k dst w h -> aligned B src -> aligned B dst -> within k (2 ^ f_bits (vi_fmt vi) - 1) src w h -> mild op p ->
  exists mv ms, kernelV B op k p src w h dst = Ok mv /\ kernelOf op k p t0 src w h dst = Ok ms /\ b_size mv = b_size (p_buf dst) /\ b_size ms = b_size (p_buf dst) /\
    same (imageOf k (mkPl (p_stride dst) mv) w h) (imageOf k (mkPl (p_stride dst) ms) w h).
Proof.
  intros B op vi a d t0 src w h dst KB V CR k p OV W H WS WD AS AD WI MI. apply (kernels_agree B op vi a d); auto.
  intros x y X Y. fold k p. pose proof (create_inv op vi a d V CR) as C. destruct C as [C1 C2 C3 C4 C5 C6 C7 C8 C9 C10 C11 C12]. fold p in C6, C10, C11.
  pose proof (around_upTo k _ src w h x y ltac:(lia) ltac:(lia) WI) as UP. pose proof (around_length (imageOf k src w h) x y) as LN.
  assert (MX : 0 <= 2 ^ f_bits (vi_fmt vi) - 1 < 65536).
  { destruct (bytes_of _ V) as (_ & _ & _ & B4). assert (2 ^ 0 <= 2 ^ f_bits (vi_fmt vi)) by (apply Z.pow_le_mono_r; lia).
    assert (2 ^ f_bits (vi_fmt vi) <= 2 ^ 16) by (apply Z.pow_le_mono_r; lia). change (2 ^ 0) with 1 in *. change (2 ^ 16) with 65536 in *. lia. }
  destruct op as [ | | | | | | |t]; cbn [quiet mild isGradient] in *; try exact I.
  - destruct MI. eapply grad_calm; eauto.
  - destruct MI. eapply grad_calm; eauto.
  - destruct (C11 _ eq_refl) as (_ & CO & _). destruct (coefsOf_spec _ _ CO) as (LM & _).
    assert (S9 : zlength (g_matrix p) = 9).
    { destruct t; cbn [opV] in OV; try (exfalso; apply OV; reflexivity). destruct (Z.eqb_spec (g_size p) 9) as [S9|]; [exact S9|]. exfalso; apply OV; reflexivity. }
    destruct MI as (D1 & D2 & D3 & D4). eapply conv_calm; eauto.
Qed.
