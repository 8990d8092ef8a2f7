(** Lut2 on frames. *)
From Coq Require Import String.
From Coq Require Import ZArith List Lia Bool.
From Verif Require Import Common FormatSpec Format FormatLemmas FrameSpec Frame FrameLemmas FrameGeom FrameFacts ImageSpec PlaneMem Spatial
  SpatialLemmas SpatialFrames SpatialStack SpatialShuffle SpatialFacts Pixel PixelLemmas PixelSpec Lut LutLemmas LutFrames.
Import ListNotations.
Open Scope Z_scope.

Section Frames2.
Variable D : Type.
Variable tofloat : D -> Z.

(** The value of the pair [x], [y] as the caller gave it; lists have [2 ^ bx] values for
    each [y]. *)
Definition given2 (a : lut2Args D) (bx bitsout x y v : Z) : Prop :=
  match l2_func a with
  | Some f => exists vi vd, f x y = RVal vi vd /\ fits D tofloat (l2_float a) bitsout vi vd v
  | None => fits D tofloat (l2_float a) bitsout (nthz (orNil (l2_lut a)) (x + 2 ^ bx * y)) (nthz (orNil (l2_lutf a)) (x + 2 ^ bx * y)) v
  end.

Lemma func2Row_spec : forall fo nout f base n j t t', func2Row tofloat n j fo nout f base t = Some t' ->
  forall k, (j <= k < j + Z.of_nat n -> exists vi vd v, f k = RVal vi vd /\ convert tofloat fo nout vi vd = Some v /\ t' (k + base) = Some v) /\
            (k < j \/ j + Z.of_nat n <= k -> t' (k + base) = t (k + base)).
Proof.
  intros fo nout f base. induction n as [|n IH]; intros j t t' E k; cbn [func2Row] in E.
  - injection E as <-. split; [intros; lia | reflexivity].
  - destruct (f j) as [m|vi vd] eqn:F; [discriminate|]. destruct (convert tofloat fo nout vi vd) as [v|] eqn:C; [|discriminate].
    destruct (IH _ _ _ E k) as (I1 & I2). split.
    + intros K. destruct (Z.eq_dec k j) as [->|N].
      * exists vi, vd, v. split; [exact F|]. split; [exact C|]. rewrite I2 by lia. apply setT_same.
      * apply I1. lia.
    + intros K. rewrite I2 by lia. apply setT_other. lia.
Qed.

Lemma func2Loop_spec : forall fo nout f nx n i t t', 0 < nx -> func2Loop tofloat n i nx fo nout f t = Some t' ->
  forall y x, 0 <= x < nx ->
    (i <= y < i + Z.of_nat n -> exists vi vd v, f x y = RVal vi vd /\ convert tofloat fo nout vi vd = Some v /\ t' (x + y * nx) = Some v) /\
    (y < i \/ i + Z.of_nat n <= y -> t' (x + y * nx) = t (x + y * nx)).
Proof.
  intros fo nout f nx. induction n as [|n IH]; intros i t t' NX E y x X; cbn [func2Loop] in E.
  - injection E as <-. split; [intros; lia | reflexivity].
  - destruct (func2Row tofloat (Z.to_nat nx) 0 fo nout (fun j => f j i) (i * nx) t) as [t1|] eqn:R; [|discriminate].
    pose proof (func2Row_spec _ _ _ _ _ _ _ _ R) as S. rewrite Z2Nat.id in S by lia.
    destruct (IH _ _ _ NX E y x X) as (I1 & I2).
    split.
    + intros Y. destruct (Z.eq_dec y i) as [->|N].
      * rewrite I2 by lia. apply S. lia.
      * apply I1. lia.
    + intros Y. rewrite I2 by lia. replace (x + y * nx) with ((x + (y - i) * nx) + i * nx) by ring.
      apply S. destruct Y as [Y|Y]; [left | right]; nia.
Qed.

Definition arraysFit2 (a : lut2Args D) (n : Z) : Prop :=
  l2_func a = None -> if l2_float a then zlength (orNil (l2_lutf a)) = n else zlength (orNil (l2_lut a)) = n.

Lemma buildTable2_spec : forall bx by_ bo a t, 0 <= bx -> 0 <= by_ -> arraysFit2 a (2 ^ (bx + by_)) ->
  buildTable2 tofloat bx by_ bo a = Ok t ->
  forall x y, 0 <= x < 2 ^ bx -> 0 <= y < 2 ^ by_ -> exists v, t (x + 2 ^ bx * y) = Some v /\ given2 a bx bo x y v.
Proof.
  intros bx by_ bo a t BX BY AF E x y X Y. unfold buildTable2 in E. unfold given2.
  assert (PX : 0 < 2 ^ bx) by (apply Z.pow_pos_nonneg; lia). assert (PY : 0 < 2 ^ by_) by (apply Z.pow_pos_nonneg; lia).
  destruct (l2_func a) as [f|] eqn:F.
  - destruct (func2Loop tofloat (Z.to_nat (2 ^ by_)) 0 (2 ^ bx) (l2_float a) (if l2_float a then 0 else 2 ^ bo) f noTable) as [t'|] eqn:L; [|discriminate].
    injection E as ->. destruct (func2Loop_spec _ _ _ _ _ _ _ _ PX L y x X) as (S & _). rewrite Z2Nat.id in S by lia.
    destruct (S ltac:(lia)) as (vi & vd & v & S1 & S2 & S3). rewrite Z.mul_comm in S3. exists v. split; [exact S3|].
    exists vi, vd. split; [exact S1|]. apply convert_fits. exact S2.
  - specialize (AF F). rewrite Z.pow_add_r in AF by lia. set (conv := arrayConv tofloat (l2_float a) (if l2_float a then 0 else 2 ^ bo) (orNil (l2_lut a)) (orNil (l2_lutf a))) in *.
    assert (XY : 0 <= x + 2 ^ bx * y < 2 ^ bx * 2 ^ by_) by nia.
    destruct (listLoop_spec conv (Z.to_nat (2 ^ bx * 2 ^ by_)) 0 noTable) as (_ & S & _).
    { intros j J. rewrite Z2Nat.id in J by nia. unfold conv, arrayConv. destruct (l2_float a).
      - destruct (nthz (orNil (l2_lutf a)) j) eqn:N; [eauto|]. apply nthz_None_iff in N. lia.
      - destruct (nthz (orNil (l2_lut a)) j) eqn:N; [eauto|]. apply nthz_None_iff in N. lia. }
    rewrite Z2Nat.id in S by nia. destruct (S t E (x + 2 ^ bx * y)) as (S1 & _). destruct (S1 ltac:(lia)) as (v & S2 & S3).
    exists v. split; [exact S3|]. apply convert_fits. unfold conv, arrayConv in S2. unfold convert. destruct (l2_float a).
    + destruct (nthz (orNil (l2_lutf a)) (x + 2 ^ bx * y)); [|discriminate]. injection S2 as <-. reflexivity.
    + destruct (nthz (orNil (l2_lut a)) (x + 2 ^ bx * y)); [|discriminate]. injection S2 as S2. exact S2.
Qed.

Lemma lut2Create_inv : forall avx vx vy a d, fmt_valid (vi_fmt vx) -> fmt_valid (vi_fmt vy) -> lut2Create tofloat avx vx vy a = Ok d ->
  let bo := bitsOut (l2_bits a) (l2_float a) (f_bits (vi_fmt vx)) in
  f_bits (vi_fmt vx) + f_bits (vi_fmt vy) <= 20 /\ f_ssw (vi_fmt vx) = f_ssw (vi_fmt vy) /\ f_ssh (vi_fmt vx) = f_ssh (vi_fmt vy) /\
  vi_w vx = vi_w vy /\ vi_h vx = vi_h vy /\
  (if l2_float a then bo = 32 else 8 <= bo <= 16) /\
  getPlanesArg (l2_planes a) = Some (l2_process d) /\
  buildTable2 tofloat (f_bits (vi_fmt vx)) (f_bits (vi_fmt vy)) bo a = Ok (l2_tbl d) /\
  arraysFit2 a (2 ^ (f_bits (vi_fmt vx) + f_bits (vi_fmt vy))) /\
  fmt_valid (vi_fmt (l2_out d)) /\ f_bits (vi_fmt (l2_out d)) = bo /\ f_st (vi_fmt (l2_out d)) = (if l2_float a then stFloat else stInteger) /\
  f_cf (vi_fmt (l2_out d)) = f_cf (vi_fmt vx) /\ f_np (vi_fmt (l2_out d)) = f_np (vi_fmt vx) /\
  f_ssw (vi_fmt (l2_out d)) = f_ssw (vi_fmt vx) /\ f_ssh (vi_fmt (l2_out d)) = f_ssh (vi_fmt vx) /\
  vi_w (l2_out d) = vi_w vx /\ vi_h (l2_out d) = vi_h vx /\ vi_n (l2_out d) = vi_n vx /\
  l2_bx d = f_bits (vi_fmt vx) /\ l2_by d = f_bits (vi_fmt vy) /\ l2_kx d = f_bytes (vi_fmt vx) /\ l2_ky d = f_bytes (vi_fmt vy) /\
  (l2_gather d = true -> l2_float a = false).
Proof.
  intros avx vx vy a d V VY E bo. unfold lut2Create in E. fold (bitsOut (l2_bits a) (l2_float a) (f_bits (vi_fmt vx))) in E. fold bo in E.
  destruct (negb (constantFormat vx) || negb (constantFormat vy)); [discriminate|].
  match type of E with (if ?b then _ else _) = _ => destruct b eqn:G1 end; [discriminate|].
  repeat (apply orb_false_elim in G1; let H := fresh "K" in destruct G1 as (G1 & H)).
  repeat match goal with H : negb (_ =? _) = false |- _ => apply negb_false_iff, Z.eqb_eq in H end.
  match type of E with (if ?b then _ else _) = _ => destruct b eqn:G2 end; [discriminate|].
  assert (BO : if l2_float a then bo = 32 else 8 <= bo <= 16).
  { destruct (l2_float a); cbn [andb negb orb] in G2.
    - destruct (Z.eqb_spec bo 32); [assumption|discriminate].
    - destruct (Z.ltb_spec bo 8); [discriminate|]. destruct (Z.ltb_spec 16 bo); [discriminate|]. lia. }
  clear G2.
  destruct (queryFmt (f_cf (vi_fmt vx)) _ bo _ _) as [fo| |] eqn:Q; [|discriminate|discriminate].
  apply query_out in Q; [|exact V|destruct (l2_float a); [right|left]; lia].
  destruct Q as (Q1 & Q2 & Q3 & Q4 & Q5 & Q6 & Q7). cbn [obind] in E.
  destruct (getPlanesArg (l2_planes a)) as [process|] eqn:GP; [|discriminate].
  cbv zeta in E.
  match type of E with (if ?b then _ else _) = _ => destruct b eqn:G13 end; [discriminate|].
  match type of E with (if ?b then _ else _) = _ => destruct b eqn:G14 end; [discriminate|].
  match type of E with (if ?b then _ else _) = _ => destruct b eqn:G15 end; [discriminate|].
  match type of E with (if ?b then _ else _) = _ => destruct b eqn:G16 end; [discriminate|].
  match type of E with (if ?b then _ else _) = _ => destruct b eqn:G17 end; [discriminate|].
  destruct (buildTable2 tofloat (f_bits (vi_fmt vx)) (f_bits (vi_fmt vy)) bo a) as [t| |] eqn:B; [|discriminate|discriminate].
  cbn [obind] in E. apply Ok_inj in E. rewrite <- E. cbn [l2_out l2_process l2_tbl l2_bx l2_by l2_kx l2_ky l2_gather vi_fmt vi_w vi_h vi_n].
  assert (AF : arraysFit2 a (2 ^ (f_bits (vi_fmt vx) + f_bits (vi_fmt vy)))).
  { unfold arraysFit2. intros LF. rewrite LF in G13, G14. unfold isSet in G13, G14, G15, G16.
    destruct (l2_lut a) as [l|]; destruct (l2_lutf a) as [lf|]; destruct (l2_float a); try discriminate;
      cbn [orNil option_map] in *; apply andb_false_iff in G17;
      [pose proof (zlength_nonneg _ l) as NN | pose proof (zlength_nonneg _ lf) as NN];
      destruct G17 as [G17|G17]; try (apply Z.leb_gt in G17); try (apply negb_false_iff, Z.eqb_eq in G17); lia. }
  assert (GA : avx && negb (l2_float a) && (512 * 1024 <=? 2 ^ (f_bits (vi_fmt vx) + f_bits (vi_fmt vy)) * f_bytes fo) = true -> l2_float a = false).
  { intros Q. apply andb_prop in Q. destruct Q as (Q & _). apply andb_prop in Q. destruct Q as (_ & Q). destruct (l2_float a); [discriminate|reflexivity]. }
  split; [lia|]. do 22 (split; [first [assumption | reflexivity]|]). exact GA.
Qed.

Lemma given2_bound : forall a bx bo x y v, (forall x, 0 <= tofloat x < 2 ^ 32) -> given2 a bx bo x y v ->
  (if l2_float a then bo = 32 else 8 <= bo <= 16) -> 0 <= v < 2 ^ bo.
Proof.
  intros a bx bo x y v TF G B. unfold given2, fits in G. destruct (l2_func a).
  - destruct G as (vi & vd & _ & G). destruct (l2_float a); [|tauto]. destruct G as (z & _ & ->). subst bo. apply TF.
  - destruct (l2_float a); [|tauto]. destruct G as (z & _ & ->). subst bo. apply TF.
Qed.

(** The table holds [T x y] for legal [x], [y]. *)
Definition full2 (bx by_ : Z) (t : table) (T : Z -> Z -> Z) : Prop :=
  forall x y, 0 <= x < 2 ^ bx -> 0 <= y < 2 ^ by_ -> t (x + 2 ^ bx * y) = Some (T x y).

Lemma lookup2 : forall bx by_ t T a b, 0 <= bx -> 0 <= by_ -> full2 bx by_ t T -> 0 <= a -> 0 <= b ->
  let i := Z.shiftl (Z.min b (2 ^ by_ - 1)) bx + Z.min a (2 ^ bx - 1) in
  0 <= i < 2 ^ (bx + by_) /\ lookup (2 ^ (bx + by_)) t i = Ok (T (legal bx a) (legal by_ b)).
Proof.
  intros bx by_ t T a b BX BY F A B i. unfold legal, top.
  assert (PX : 0 < 2 ^ bx) by (apply Z.pow_pos_nonneg; lia). assert (PY : 0 < 2 ^ by_) by (apply Z.pow_pos_nonneg; lia).
  assert (EI : i = Z.min a (2 ^ bx - 1) + 2 ^ bx * Z.min b (2 ^ by_ - 1)) by (unfold i; rewrite Z.shiftl_mul_pow2 by lia; ring).
  assert (R : 0 <= i < 2 ^ (bx + by_)) by (rewrite EI, Z.pow_add_r by lia; nia).
  split; [exact R|]. unfold lookup. destruct (Z.leb_spec 0 i); [|lia]. destruct (Z.ltb_spec i (2 ^ (bx + by_))); [|lia].
  cbn [andb]. rewrite EI, F by lia. reflexivity.
Qed.

Lemma gatherLane_spec : forall k size t over i v, 1 <= k <= 2 -> 0 <= i < size -> size <= 2 ^ 20 -> lookup size t i = Ok v -> 0 <= v < 2 ^ (8 * k) ->
  gatherLane k size t over i = Ok v.
Proof.
  intros k size t over i v K I S L V. unfold gatherLane. assert (W : wrapu32 i = i) by (unfold wrapu32; rewrite Z.mod_small; lia). rewrite W, L. cbn [obind].
  destruct (Z.leb_spec (i * k + 4) (size * k + 64)); [|nia].
  rewrite (Z.mul_comm (2 ^ (8 * k))), Z.mod_add by lia. rewrite Z.mod_small by lia. reflexivity.
Qed.

Lemma lut2Plane_spec : forall al d over w h p p' q T, alignment al ->
  0 <= l2_bx d -> 0 <= l2_by d -> l2_bx d + l2_by d <= 20 ->
  (l2_kx d = 1 \/ l2_kx d = 2) -> (l2_ky d = 1 \/ l2_ky d = 2) ->
  (let ko := f_bytes (vi_fmt (l2_out d)) in (ko = 1 \/ ko = 2 \/ ko = 4) /\ (l2_gather d = true -> ko <= 2)) ->
  wfPlane (l2_kx d) p w h -> (al | p_stride p) -> (forall a, 0 <= b_data (p_buf p) a < 256) ->
  wfPlane (l2_ky d) p' w h -> (al | p_stride p') -> (forall a, 0 <= b_data (p_buf p') a < 256) ->
  wfPlane (f_bytes (vi_fmt (l2_out d))) q w h -> (al | p_stride q) ->
  full2 (l2_bx d) (l2_by d) (l2_tbl d) T -> (forall x y, 0 <= T x y < 256 ^ f_bytes (vi_fmt (l2_out d))) ->
  exists m, lut2Plane d over w h p p' q = Ok m /\ b_size m = b_size (p_buf q) /\
    same (imageOf (f_bytes (vi_fmt (l2_out d))) (mkPl (p_stride q) m) w h)
         (looked2 (l2_bx d) (l2_by d) T (imageOf (l2_kx d) p w h) (imageOf (l2_ky d) p' w h)).
Proof.
  intros al d over w h p p' q T A BX BY BS KX KY (KO & KG) WP AP BYP WP' AP' BYP' WQ AQ F TR. unfold lut2Plane.
  set (kx := l2_kx d) in *. set (ky := l2_ky d) in *. set (ko := f_bytes (vi_fmt (l2_out d))) in *.
  assert (INR : forall x y, 0 <= i_at (imageOf kx p w h) x y) by (intros; apply (image_range kx p w h); [lia | exact BYP]).
  assert (INR' : forall x y, 0 <= i_at (imageOf ky p' w h) x y) by (intros; apply (image_range ky p' w h); [lia | exact BYP']).
  assert (A32 : (32 | al)) by (destruct A as [-> | ->]; [exists 1 | exists 2]; reflexivity).
  assert (AL : (32 | p_stride p) /\ (32 | p_stride p') /\ (32 | p_stride q)).
  { split; [|split]; eapply Z.divide_trans; eassumption. }
  destruct AL as (AL1 & AL2 & AL3).
  pose proof WP as (W0 & H0 & SP & BP). pose proof WP' as (_ & _ & SP' & _). pose proof WQ as (_ & _ & SQ & BQ).
  assert (GR : forall n k s, 0 < n -> 0 < k -> w * k <= s -> (n * k | 32) -> (32 | s) -> n * groups w n * k <= s).
  { intros n k s N K S D1 D2. apply group_fits; auto; eapply Z.divide_trans; eassumption. }
  destruct (l2_gather d && negb ((kx =? 1) && (ky =? 1))) eqn:GA.
  - apply andb_prop in GA. destruct GA as (GA & _). specialize (KG GA).
    assert (D16 : forall k, k = 1 \/ k = 2 -> (16 * k | 32)) by (intros k [-> | ->]; [exists 2 | exists 1]; reflexivity).
    apply (drawGroups_spec ko w h (fun x y => T (legal (l2_bx d) (i_at (imageOf kx p w h) x y)) (legal (l2_by d) (i_at (imageOf ky p' w h) x y)))); try lia; auto.
    + apply GR; try lia; auto. apply D16. lia.
    + intros j y J Y. unfold lut2Group. fold kx ky ko.
      destruct (loadGroup kx p w h 16 j y) as (l & E & L & R & AT); try lia; auto. { apply GR; try lia; auto. }
      destruct (loadGroup ky p' w h 16 j y) as (l' & E' & L' & R' & AT'); try lia; auto. { apply GR; try lia; auto. }
      change (Z.to_nat 16) with 16%nat in E, E'. rewrite E. cbn [obind]. rewrite E'. cbn [obind].
      rewrite (mapO_spec _ (fun ab => T (legal (l2_bx d) (fst ab)) (legal (l2_by d) (snd ab)))).
      * exists (map (fun ab => T (legal (l2_bx d) (fst ab)) (legal (l2_by d) (snd ab))) (combine l l')). split; [reflexivity|].
        split. { rewrite zlength_map. unfold zlength in *. rewrite combine_length. lia. }
        intros t T0 TW. rewrite nthz_map.
        assert (NC : nthz (combine l l') t = Some (i_at (imageOf kx p w h) (16 * j + t) y, i_at (imageOf ky p' w h) (16 * j + t) y)).
        { assert (N1 := AT t T0). assert (N2 := AT' t T0).
          unfold nthz in *. destruct (t <? 0); [discriminate|]. revert N1 N2. generalize (Z.to_nat t). clear.
          revert l'. induction l as [|u l IH]; intros l' n N1 N2; [destruct n; discriminate|].
          destruct l' as [|u' l']; [destruct n; discriminate|]. destruct n as [|n]; cbn in *; [congruence | eauto]. }
        rewrite NC. reflexivity.
      * intros (u, v) I. cbn [fst snd].
        assert (U : 0 <= u < 256 ^ kx) by (apply (nthz_bound_In _ l R u); eapply in_combine_l; exact I).
        assert (V : 0 <= v < 256 ^ ky) by (apply (nthz_bound_In _ l' R' v); eapply in_combine_r; exact I).
        destruct (lookup2 (l2_bx d) (l2_by d) (l2_tbl d) T u v BX BY F ltac:(lia) ltac:(lia)) as (L1 & L2).
        apply gatherLane_spec; auto; [lia | apply Z.pow_le_mono_r; lia |].
        pose proof (TR (legal (l2_bx d) u) (legal (l2_by d) v)) as TR'. rewrite Z.pow_mul_r by lia. exact TR'.
  - apply (drawPlane_spec ko w h (fun x y => T (legal (l2_bx d) (i_at (imageOf kx p w h) x y)) (legal (l2_by d) (i_at (imageOf ky p' w h) x y)))); try lia; auto.
    intros x y X Y. split; [|apply TR]. unfold lut2One. fold kx ky.
    rewrite (loadS_at kx p w h) by (lia || assumption). cbn [obind]. rewrite (loadS_at ky p' w h) by (lia || assumption). cbn [obind].
    apply lookup2; auto.
Qed.

(** Every frame is the table applied to the pairs of samples, on the planes asked for. *)
Theorem lut2_frame : forall al g avx vx vy a d over sx sy, alignment al ->
  (forall x, 0 <= tofloat x < 2 ^ 32) -> Forall (fun o => in_int o) (l2_planes a) ->
  lut2Create tofloat avx vx vy a = Ok d ->
  wfFrame al sx -> byteFrame sx -> matches sx vx -> wfFrame al sy -> byteFrame sy -> matches sy vy ->
  f_np (vi_fmt vx) <= f_np (vi_fmt vy) ->
  (forall i, 0 <= i < f_np (vi_fmt vx) -> chosen (l2_planes a) i = false -> f_bytes (vi_fmt (l2_out d)) = f_bytes (vi_fmt vx)) ->
  exists T r, (forall x y, 0 <= x < 2 ^ f_bits (vi_fmt vx) -> 0 <= y < 2 ^ f_bits (vi_fmt vy) ->
                 given2 a (f_bits (vi_fmt vx)) (bitsOut (l2_bits a) (l2_float a) (f_bits (vi_fmt vx))) x y (T x y)) /\
    lut2GetFrame al g d over sx sy = Ok r /\ wfFrame al r /\ matches r (l2_out d) /\ vf_props r = vf_props sx /\
    forall i, 0 <= i < f_np (vi_fmt vx) -> exists p p' q, planeImg sx i = Some p /\ planeImg sy i = Some p' /\ planeImg r i = Some q /\
      same q (if chosen (l2_planes a) i then looked2 (f_bits (vi_fmt vx)) (f_bits (vi_fmt vy)) T p p' else p).
Proof.
  intros al g avx vx vy a d over sx sy A TF PL E WF BYF (M1 & M2 & M3) WF' BYF' (M1' & M2' & M3') NPS SH.
  assert (V : fmt_valid (vi_fmt vx)) by (rewrite <- M1; apply WF).
  assert (V' : fmt_valid (vi_fmt vy)) by (rewrite <- M1'; apply WF').
  pose proof (lut2Create_inv avx vx vy a d V V' E) as I. cbv zeta in I.
  set (bo := bitsOut (l2_bits a) (l2_float a) (f_bits (vi_fmt vx))) in *.
  destruct I as (J1 & J2 & J3 & J4 & J5 & I2 & I3 & I4 & I5 & I6 & I7 & I8 & I9 & I10 & I11 & I12 & I13 & I14 & I15 & I16 & I17 & I18 & I19 & I20).
  destruct (bytes_of _ V) as (B1 & B2 & B3 & B4). destruct (bytes_of _ V') as (B1' & B2' & B3' & B4'). destruct (bytes_of _ I6) as (C1 & C2 & C3 & C4).
  assert (IA : isAl al) by (destruct A as [-> | ->]; [exists 5 | exists 6]; split; [reflexivity|lia|reflexivity|lia]).
  pose proof (buildTable2_spec (f_bits (vi_fmt vx)) (f_bits (vi_fmt vy)) bo a (l2_tbl d) ltac:(lia) ltac:(lia) I5 I4) as BT.
  set (T := fun x y => match l2_tbl d (x + 2 ^ f_bits (vi_fmt vx) * y) with Some v => v | None => 0 end).
  assert (T1 : forall x y, 0 <= x < 2 ^ f_bits (vi_fmt vx) -> 0 <= y < 2 ^ f_bits (vi_fmt vy) ->
             l2_tbl d (x + 2 ^ f_bits (vi_fmt vx) * y) = Some (T x y) /\ given2 a (f_bits (vi_fmt vx)) bo x y (T x y)).
  { intros x y X Y. destruct (BT x y X Y) as (v & B & G). unfold T. rewrite B. auto. }
  clearbody T.
  set (TT := fun x y => if (0 <=? x) && (x <? 2 ^ f_bits (vi_fmt vx)) && (0 <=? y) && (y <? 2 ^ f_bits (vi_fmt vy)) then T x y else 0).
  assert (TB : forall x y, 0 <= TT x y < 256 ^ f_bytes (vi_fmt (l2_out d))).
  { assert (Q : 2 ^ bo <= 256 ^ f_bytes (vi_fmt (l2_out d))).
    { change 256 with (2 ^ 8). rewrite <- Z.pow_mul_r by lia. apply Z.pow_le_mono_r; lia. }
    assert (0 < 2 ^ bo) by (apply Z.pow_pos_nonneg; lia).
    intros x y. unfold TT. destruct (Z.leb_spec 0 x); cbn [andb]; [|lia]. destruct (Z.ltb_spec x (2 ^ f_bits (vi_fmt vx))); cbn [andb]; [|lia].
    destruct (Z.leb_spec 0 y); cbn [andb]; [|lia]. destruct (Z.ltb_spec y (2 ^ f_bits (vi_fmt vy))); [|lia].
    destruct (T1 x y ltac:(lia) ltac:(lia)) as (_ & G). pose proof (given2_bound _ _ _ _ _ _ TF G I2). lia. }
  assert (TTE : forall x y, 0 <= x < 2 ^ f_bits (vi_fmt vx) -> 0 <= y < 2 ^ f_bits (vi_fmt vy) -> TT x y = T x y).
  { intros x y X Y. unfold TT. destruct (Z.leb_spec 0 x); [|lia]. destruct (Z.ltb_spec x (2 ^ f_bits (vi_fmt vx))); [|lia].
    destruct (Z.leb_spec 0 y); [|lia]. destruct (Z.ltb_spec y (2 ^ f_bits (vi_fmt vy))); [|lia]. reflexivity. }
  clearbody TT.
  assert (LG : forall b v, 0 <= b -> 0 <= v -> 0 <= legal b v < 2 ^ b).
  { intros b v Hb Hv. unfold legal, top. pose proof (Z.pow_pos_nonneg 2 b). lia. }
  assert (PRC : forall i, 0 <= i < f_np (vi_fmt (l2_out d)) -> l2_process d i = chosen (l2_planes a) i).
  { intros i Hi. apply getPlanesArg_chosen; auto. pose proof (valid_np _ I6). lia. }
  pose proof WF as (WF1 & WF2 & WF3 & _ & WFP). pose proof WF' as (_ & _ & _ & _ & WFP').
  assert (EW : forall i, planeW (vf_fmt sx) (vf_w sx) i = planeW (vi_fmt (l2_out d)) (vf_w sx) i) by (intros; unfold planeW; rewrite M1, I11; reflexivity).
  assert (EH : forall i, planeH (vf_fmt sx) (vf_h sx) i = planeH (vi_fmt (l2_out d)) (vf_h sx) i) by (intros; unfold planeH; rewrite M1, I12; reflexivity).
  assert (EW' : forall i, planeW (vf_fmt sy) (vf_w sy) i = planeW (vi_fmt (l2_out d)) (vf_w sx) i).
  { intros; unfold planeW; rewrite M1', M2', M2, I11, J2, J4; reflexivity. }
  assert (EH' : forall i, planeH (vf_fmt sy) (vf_h sy) i = planeH (vi_fmt (l2_out d)) (vf_h sx) i).
  { intros; unfold planeH; rewrite M1', M3', M3, I12, J3, J5; reflexivity. }
  assert (PLS : forall i, 0 <= i < f_np (vi_fmt vx) -> exists p p', planeImg sx i = Some p /\ planeImg sy i = Some p').
  { intros i Hi. destruct (wf_plane al sx i IA WF) as (p & N1 & _); [rewrite M1; lia|]. destruct (wf_plane al sy i IA WF') as (p' & N2 & _); [rewrite M1'; lia|].
    unfold planeImg. rewrite N1, N2. eauto. }
  destruct (filterFrame_spec al g (vi_fmt (l2_out d)) (vf_w sx) (vf_h sx) (l2_process d) sx
     (fun i q => match nthz (vf_planes sx) i, nthz (vf_planes sy) i with
        | Some p, Some p' => lut2Plane d over (getWidth (vf_fmt sx) (vf_w sx) i) (getHeight (vf_fmt sx) (vf_h sx) i) p p' q
        | _, _ => UB end)
     (fun i => match planeImg sx i, planeImg sy i with
        | Some p, Some p' => if l2_process d i then looked2 (f_bits (vi_fmt vx)) (f_bits (vi_fmt vy)) T p p' else p
        | _, _ => mkI 0 0 (fun _ _ => 0) end)) as (r & R1 & R2 & R3 & R4 & R5 & R6 & R7); auto.
  - intros i Hi PR q WQ SQ.
    destruct (wf_plane al sx i IA WF) as (p & N1 & WP); [rewrite M1; lia|]. destruct (wf_plane al sy i IA WF') as (p' & N2 & WP'); [rewrite M1'; lia|].
    unfold planeImg. rewrite N1, N2, PR. rewrite getWidth_planeW, getHeight_planeH by exact WF1.
    rewrite EW, EH in *. rewrite EW', EH' in *.
    rewrite M1 in WP |- *. rewrite M1' in WP' |- *. rewrite <- I18 in WP |- *. rewrite <- I19 in WP' |- *.
    destruct (lut2Plane_spec al d over (planeW (vi_fmt (l2_out d)) (vf_w sx) i) (planeH (vi_fmt (l2_out d)) (vf_h sx) i) p p' q TT A)
      as (m & L1 & L2 & L3); auto; try lia.
    + split; [exact C1|]. intros Q. apply I20 in Q. rewrite Q in I2. apply C3. lia.
    + destruct (WFP i p N1) as (Q & _). rewrite Q. apply stride_div; auto. lia.
    + apply (BYF i p N1).
    + destruct (WFP' i p' N2) as (Q & _). rewrite Q. apply stride_div; auto; [rewrite M1'; exact V' | lia].
    + apply (BYF' i p' N2).
    + rewrite SQ. apply stride_div; auto. lia.
    + rewrite I16, I17. intros x y X Y. rewrite TTE by assumption. apply T1; assumption.
    + exists m. split; [exact L1|]. split; [exact L2|]. rewrite I16, I17 in L3.
      apply (same_trans _ _ _ L3). split; [reflexivity|]. split; [reflexivity|]. intros x y _ _. cbn [mapped2 looked2 i_at].
      apply TTE; apply LG; try lia; (eapply image_range; [lia | eauto]).
  - intros i Hi PR. rewrite M1 at 1. split; [lia|]. split; [rewrite M1; symmetry; apply (SH i); [lia | rewrite <- PRC by exact Hi; exact PR]|].
    split; [apply EW|]. split; [apply EH|].
    destruct (PLS i ltac:(lia)) as (p & p' & P1 & P2). rewrite P1, P2, PR. exists p. split; [reflexivity | apply same_refl].
  - exists T, r. split; [intros x y X Y; apply T1; assumption|]. split; [exact R1|]. split; [exact R2|].
    split; [split; [exact R3|]; split; [rewrite R4, I13; exact M2 | rewrite R5, I14; exact M3]|]. split; [exact R6|].
    intros i Hi. destruct (PLS i Hi) as (p & p' & P1 & P2). destruct (R7 i) as (q & Q1 & Q2); [rewrite R3; lia|].
    rewrite P1, P2 in Q2. exists p, p', q. split; [exact P1|]. split; [exact P2|]. split; [exact Q1|].
    rewrite <- PRC by lia. exact Q2.
Qed.

End Frames2.
