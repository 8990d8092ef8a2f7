(** Lookup tables: what creation builds, and that every row kernel applies it. *)
From Coq Require Import String.
From Coq Require Import ZArith List Lia Bool.
From Verif Require Import Common FormatSpec Format FormatLemmas FrameSpec Frame FrameLemmas FrameGeom FrameFacts ImageSpec PlaneMem Spatial
  SpatialLemmas SpatialFrames SpatialStack SpatialShuffle Pixel PixelLemmas PixelSpec Lut.
Import ListNotations.
Open Scope Z_scope.

(** ** Tables *)

Lemma Ok_inj : forall {A} (x y : A), Ok x = Ok y -> x = y.
Proof. intros A x y H. injection H. auto. Qed.

Section Tables.
Variable D : Type.
Variable tofloat : D -> Z.

(** The value the user gives for index [i]. *)
Definition entry (a : lutArgs D) (maxval i : Z) : option Z :=
  match la_func a with
  | Some f => match f i with RVal vi vd => convert tofloat (la_float a) maxval vi vd | RError _ => None end
  | None => match arrayConv tofloat (la_float a) maxval (orNil (la_lut a)) (orNil (la_lutf a)) i with Ok o => o | _ => None end
  end.

Lemma setT_same : forall t i v, setT t i v i = Some v.
Proof. intros. unfold setT. rewrite Z.eqb_refl. reflexivity. Qed.
Lemma setT_other : forall t i v j, j <> i -> setT t i v j = t j.
Proof. intros. unfold setT. destruct (Z.eqb_spec j i); [lia|reflexivity]. Qed.

Lemma funcLoop_spec : forall fo nout (f : Z -> reply D) n i t,
  (forall j, i <= j < i + Z.of_nat n -> f j <> RError ""%string) ->
  let '(t', err) := funcLoop tofloat n i fo nout f t in
  (err = ""%string <-> forall j, i <= j < i + Z.of_nat n -> exists vi vd v, f j = RVal vi vd /\ convert tofloat fo nout vi vd = Some v) /\
  (err = ""%string -> forall j, (i <= j < i + Z.of_nat n ->
      exists vi vd v, f j = RVal vi vd /\ convert tofloat fo nout vi vd = Some v /\ t' j = Some v) /\
      (j < i \/ i + Z.of_nat n <= j -> t' j = t j)).
Proof.
  intros fo nout f. induction n as [|n IH]; intros i t NE; cbn [funcLoop].
  - split; [split; [intros _ j J; lia | reflexivity]|]. intros _ j. split; [intros; lia | reflexivity].
  - destruct (f i) as [msg|vi vd] eqn:F.
    + assert (M : msg <> ""%string). { intro Q. apply (NE i); [lia|]. rewrite F, Q. reflexivity. }
      split; [split|].
      * intros Q. contradiction.
      * intros Q. destruct (Q i ltac:(lia)) as (a & b & c & X & _). congruence.
      * intros Q. contradiction.
    + destruct (convert tofloat fo nout vi vd) as [v|] eqn:C.
      * specialize (IH (i + 1) (setT t i v)).
        destruct (funcLoop tofloat n (i + 1) fo nout f (setT t i v)) as (t', err).
        destruct IH as (A & B). { intros j J. apply NE. lia. }
        split; [split|].
        -- intros Q j J. destruct (Z.eq_dec j i) as [->|N]; [eauto|]. apply (proj1 A Q). lia.
        -- intros Q. apply A. intros j J. apply Q. lia.
        -- intros Q j. destruct (B Q j) as (B1 & B2). split.
           ++ intros J. destruct (Z.eq_dec j i) as [->|N].
              ** exists vi, vd, v. split; [exact F|]. split; [exact C|]. rewrite B2 by lia. apply setT_same.
              ** apply B1. lia.
           ++ intros J. rewrite B2 by lia. apply setT_other. lia.
      * split; [split|]; [discriminate | | discriminate].
        intros Q. destruct (Q i ltac:(lia)) as (a & b & c & X & Y). congruence.
Qed.

Lemma listLoop_spec : forall conv n i t,
  (forall j, i <= j < i + Z.of_nat n -> exists o, conv j = Ok o) ->
  ((exists t', listLoop n i conv t = Ok t') <-> forall j, i <= j < i + Z.of_nat n -> conv j <> Ok None) /\
  (forall t', listLoop n i conv t = Ok t' -> forall j,
     (i <= j < i + Z.of_nat n -> exists v, conv j = Ok (Some v) /\ t' j = Some v) /\
     (j < i \/ i + Z.of_nat n <= j -> t' j = t j)) /\
  (listLoop n i conv t = Err \/ exists t', listLoop n i conv t = Ok t').
Proof.
  intros conv. induction n as [|n IH]; intros i t OKS; cbn [listLoop].
  - split; [split; [intros _ j J; lia | eauto]|]. split; [|eauto]. intros t' [= <-] j. split; [intros; lia | reflexivity].
  - destruct (OKS i ltac:(lia)) as (o & C). rewrite C. cbn [obind]. destruct o as [v|].
    + destruct (IH (i + 1) (setT t i v)) as (A & B & E). { intros j J. apply OKS. lia. }
      split; [split|split].
      * intros Q j J. destruct (Z.eq_dec j i) as [->|N]; [congruence|]. apply (proj1 A Q). lia.
      * intros Q. apply A. intros j J. apply Q. lia.
      * intros t' Q j. destruct (B t' Q j) as (B1 & B2). split.
        -- intros J. destruct (Z.eq_dec j i) as [->|N].
           ++ exists v. split; [exact C|]. rewrite B2 by lia. apply setT_same.
           ++ apply B1. lia.
        -- intros J. rewrite B2 by lia. apply setT_other. lia.
      * exact E.
    + split; [split|split; [|auto]].
      * intros (t' & Q). discriminate.
      * intros Q. exfalso. apply (Q i); [lia | exact C].
      * discriminate.
Qed.

(** The arrays have as many elements as there are indices. *)
Definition arraysFit (a : lutArgs D) (n : Z) : Prop :=
  la_func a = None -> if la_float a then zlength (orNil (la_lutf a)) = n else zlength (orNil (la_lut a)) = n.

Definition noEmptyError (a : lutArgs D) (n : Z) : Prop :=
  forall f, la_func a = Some f -> forall j, 0 <= j < n -> f j <> RError ""%string.

Lemma pow2_le : forall a b, 0 <= a <= b -> 0 < 2 ^ a <= 2 ^ b.
Proof. intros. split; [apply Z.pow_pos_nonneg; lia | apply Z.pow_le_mono_r; lia]. Qed.

Lemma buildTable_spec : forall bits bytes bitsout a, 0 <= bits <= 8 * bytes -> arraysFit a (2 ^ bits) -> noEmptyError a (2 ^ bits) ->
  let maxval := if la_float a then 0 else 2 ^ bitsout in
  ((exists t, buildTable tofloat bits bytes bitsout a = Ok t) <-> forall i, 0 <= i < 2 ^ bits -> entry a maxval i <> None) /\
  (forall t, buildTable tofloat bits bytes bitsout a = Ok t -> forall v, 0 <= v < 2 ^ (8 * bytes) ->
     t v = entry a maxval (legal bits v) /\ t v <> None) /\
  buildTable tofloat bits bytes bitsout a <> UB.
Proof.
  intros bits bytes bitsout a B AF NE maxval. pose proof (pow2_le _ _ B) as P2.
  (* the loops, before padding *)
  assert (CORE : let o := match la_func a with
     | Some f => let '(t, err) := funcLoop tofloat (Z.to_nat (2 ^ bits)) 0 (la_float a) maxval f noTable in
                 if String.eqb err "" then Ok t else Err
     | None => listLoop (Z.to_nat (2 ^ bits)) 0 (arrayConv tofloat (la_float a) maxval (orNil (la_lut a)) (orNil (la_lutf a))) noTable
     end in
     ((exists t, o = Ok t) <-> forall i, 0 <= i < 2 ^ bits -> entry a maxval i <> None) /\
     (forall t, o = Ok t -> forall i, 0 <= i < 2 ^ bits -> t i = entry a maxval i /\ t i <> None) /\ o <> UB).
  { unfold entry. destruct (la_func a) as [f|] eqn:LF; cbv zeta.
    - pose proof (funcLoop_spec (la_float a) maxval f (Z.to_nat (2 ^ bits)) 0 noTable) as FS.
      destruct (funcLoop tofloat (Z.to_nat (2 ^ bits)) 0 (la_float a) maxval f noTable) as (t, err).
      rewrite Z2Nat.id in FS by lia. rewrite Z.add_0_l in FS. destruct FS as (A & C). { intros j J. apply (NE f LF); exact J. }
      assert (ITFF : err = ""%string <-> forall i, 0 <= i < 2 ^ bits ->
          match f i with RVal vi vd => convert tofloat (la_float a) maxval vi vd | RError _ => None end <> None).
      { rewrite A. split; intros Q i I.
        - destruct (Q i I) as (vi & vd & v & X & Y). rewrite X, Y. discriminate.
        - specialize (Q i I). destruct (f i) as [m|vi vd]; [congruence|]. destruct (convert tofloat (la_float a) maxval vi vd) eqn:Y; [|congruence]. eauto. }
      destruct (String.eqb_spec err "") as [ER|ER].
      + split; [split; [intros _; apply ITFF, ER | eauto]|]. split; [|discriminate].
        intros t' [= <-] i I. destruct (C ER i) as (C1 & _). destruct (C1 I) as (vi & vd & v & X & Y & Z'). rewrite X, Y, Z'. split; [reflexivity|discriminate].
      + split; [split; [intros (t' & Q); discriminate | intros Q; apply ITFF in Q; contradiction]|]. split; discriminate.
    - specialize (AF LF).
      set (conv := arrayConv tofloat (la_float a) maxval (orNil (la_lut a)) (orNil (la_lutf a))) in *.
      assert (OKS : forall j, 0 <= j < 2 ^ bits -> exists o, conv j = Ok o).
      { intros j J. unfold conv, arrayConv. destruct (la_float a).
        - destruct (nthz (orNil (la_lutf a)) j) eqn:N; [eauto|]. apply nthz_None_iff in N. lia.
        - destruct (nthz (orNil (la_lut a)) j) eqn:N; [eauto|]. apply nthz_None_iff in N. lia. }
      destruct (listLoop_spec conv (Z.to_nat (2 ^ bits)) 0 noTable) as (A & C & E).
      { intros j J. apply OKS. rewrite Z2Nat.id in J by lia. lia. }
      rewrite Z2Nat.id in A, C by lia. rewrite Z.add_0_l in A, C.
      split; [rewrite A; split; intros Q i I|split].
      + destruct (OKS i I) as (o & O). specialize (Q i I). rewrite O in *. congruence.
      + specialize (Q i I). destruct (OKS i I) as (o & O). rewrite O in *. congruence.
      + intros t Q i I. destruct (C t Q i) as (C1 & _). destruct (C1 I) as (v & X & Y). rewrite X, Y. split; [reflexivity|discriminate].
      + intros Q. destruct E as [E|(t' & E)]; congruence. }
  unfold buildTable. fold maxval. cbv zeta in CORE.
  destruct (match la_func a with Some f => _ | None => _ end) as [t| |] eqn:O; destruct CORE as (C1 & C2 & C3); unfold obind.
  - split; [split; [intros _; apply C1; eauto | eauto]|]. split; [|discriminate].
    intros t' Q v V. apply Ok_inj in Q. rewrite <- Q. unfold padT, legal, top.
    destruct (Z.leb_spec (2 ^ bits) v) as [L|L]; destruct (Z.ltb_spec v (2 ^ (8 * bytes))) as [L'|L']; try lia; cbn [andb].
    + rewrite Z.min_r by lia. apply C2; [reflexivity | lia].
    + rewrite Z.min_l by lia. apply C2; [reflexivity | lia].
  - split; [split; [intros (t' & Q); discriminate | intros Q; apply C1 in Q; destruct Q; discriminate]|]. split; discriminate.
  - congruence.
Qed.

End Tables.
Arguments entry {D}.

(** ** Packing lanes *)

Lemma orShifted_bits : forall l acc j, 0 <= j ->
  Z.testbit (fold_left (fun acc sv => Z.lor acc (Z.shiftl (snd sv) (fst sv))) l acc) j =
  Z.testbit acc j || existsb (fun sv => Z.testbit (snd sv) (j - fst sv)) l.
Proof.
  induction l as [|(s, v) l IH]; intros acc j J; cbn [fold_left existsb]; [rewrite orb_false_r; reflexivity|].
  rewrite IH by exact J. rewrite Z.lor_spec, Z.shiftl_spec by exact J. cbn [fst snd]. rewrite orb_assoc. reflexivity.
Qed.

Lemma lane_bit : forall bits vals t b i, 0 < bits -> (forall v, In v vals -> 0 <= v < 2 ^ bits) -> 0 <= b < bits ->
  existsb (fun sv => Z.testbit (snd sv) (bits * t + b - fst sv)) (combine (map (fun t => bits * (i + Z.of_nat t)) (seq 0 (length vals))) vals) =
  match nthz vals (t - i) with Some v => Z.testbit v b | None => false end.
Proof.
  intros bits vals t b i B. revert i. induction vals as [|v vals IH]; intros i R Hb.
  - cbn. unfold nthz. destruct (t - i <? 0); [reflexivity|]. destruct (Z.to_nat (t - i)); reflexivity.
  - cbn [length seq map combine existsb fst snd].
    rewrite <- seq_shift, map_map.
    rewrite (map_ext _ (fun x => bits * (i + 1 + Z.of_nat x))) by (intros; f_equal; lia).
    rewrite IH; [|intros x X; apply R; right; exact X | exact Hb].
    destruct (Z.lt_trichotomy t i) as [L|[->|L]].
    + rewrite Z.testbit_neg_r by nia. cbn [orb]. unfold nthz.
      destruct (Z.ltb_spec (t - (i + 1)) 0); [|lia]. destruct (Z.ltb_spec (t - i) 0); [reflexivity|lia].
    + replace (bits * i + b - bits * (i + Z.of_nat 0)) with b by lia. rewrite Z.sub_diag, nthz_cons_0.
      unfold nthz. destruct (Z.ltb_spec (i - (i + 1)) 0); [|lia]. apply orb_false_r.
    + assert (TB : Z.testbit v (bits * t + b - bits * (i + Z.of_nat 0)) = false).
      { destruct (R v ltac:(left; reflexivity)) as (V0 & V1).
        assert (bits <= bits * t + b - bits * (i + Z.of_nat 0)) by nia.
        destruct (Z.eq_dec v 0) as [->|NZ]; [apply Z.bits_0|]. apply Z.bits_above_log2; [lia|].
        apply Z.log2_lt_pow2; [lia|]. apply Z.lt_le_trans with (2 ^ bits); [lia|]. apply Z.pow_le_mono_r; lia. }
      rewrite TB. cbn [orb]. rewrite nthz_cons_S by lia. replace (t - (i + 1)) with (t - i - 1) by lia. reflexivity.
Qed.

Lemma lanes_pack : forall bits n vals, 0 < bits -> zlength vals = n -> (forall v, In v vals -> 0 <= v < 2 ^ bits) ->
  lanesOf bits n (orShifted (map (fun t => bits * t) (zseq n)) vals) = vals.
Proof.
  intros bits n vals B L R. unfold lanesOf. set (p := orShifted _ _).
  pose proof (zlength_nonneg _ vals) as NN.
  apply nthz_ext. { rewrite zlength_map, zlength_zseq. lia. }
  intros t T. rewrite zlength_map, zlength_zseq in T.
  rewrite nthz_map, nthz_zseq by lia. cbn [option_map].
  destruct (nthz vals t) as [v|] eqn:N; [|apply nthz_None_iff in N; lia]. f_equal.
  assert (IV : In v vals) by (eapply nthz_In; exact N).
  apply Z.bits_inj'. intros b Hb.
  destruct (Z.ltb_spec b bits) as [LB|LB].
  - rewrite Z.mod_pow2_bits_low by lia. rewrite Z.div_pow2_bits by nia. unfold p, orShifted. rewrite orShifted_bits by nia.
    rewrite Z.bits_0. cbn [orb]. rewrite Z.add_comm.
    pose proof (lane_bit bits vals t b 0 B R ltac:(lia)) as LBt. rewrite Z.sub_0_r, N in LBt. rewrite <- LBt.
    f_equal. f_equal. unfold zseq. rewrite map_map. subst n. unfold zlength. rewrite Nat2Z.id. apply map_ext. intros; f_equal; lia.
  - rewrite Z.mod_pow2_bits_high by lia. symmetry. destruct (R v IV) as (V0 & V1).
    destruct (Z.eq_dec v 0) as [->|NZ]; [apply Z.bits_0|]. apply Z.bits_above_log2; [lia|].
    apply Z.log2_lt_pow2; [lia|]. apply Z.lt_le_trans with (2 ^ bits); [lia|]. apply Z.pow_le_mono_r; lia.
Qed.

(** ** Kernels *)

Lemma mapO_spec : forall {A B} (f : A -> outcome B) (F : A -> B) l, (forall x, In x l -> f x = Ok (F x)) -> mapO f l = Ok (map F l).
Proof.
  intros A B f F. induction l as [|x l IH]; intros H; [reflexivity|]. cbn [mapO map].
  rewrite H by (left; reflexivity). cbn [obind]. rewrite IH by (intros; apply H; right; assumption). reflexivity.
Qed.

(** A complete table for values below [size]. *)
Definition full (size : Z) (t : table) (T : Z -> Z) : Prop := forall v, 0 <= v < size -> t v = Some (T v).

Lemma lookup_full : forall size t T v, full size t T -> 0 <= v < size -> lookup size t v = Ok (T v).
Proof.
  intros size t T v F V. unfold lookup. destruct (Z.leb_spec 0 v); [|lia]. destruct (Z.ltb_spec v size); [|lia].
  cbn [andb]. rewrite F by lia. reflexivity.
Qed.

Lemma nthz_bound_In : forall (P : Z -> Prop) (l : list Z), (forall t v, nthz l t = Some v -> P v) -> forall v, In v l -> P v.
Proof.
  intros P l H v I. apply In_nth_error in I. destruct I as (n & N). apply (H (Z.of_nat n)).
  unfold nthz. destruct (Z.ltb_spec (Z.of_nat n) 0); [lia|]. rewrite Nat2Z.id. exact N.
Qed.

Lemma vbmiLane_spec : forall t T v, full 256 t T -> (forall u, 0 <= u < 256 -> 0 <= T u) -> 0 <= v < 256 -> vbmiLane t v = Ok (T v).
Proof.
  intros t T v F NN V. unfold vbmiLane, permutex2.
  assert (T6 : Z.testbit v 6 = (64 <=? v mod 128)).
  { rewrite Z.testbit_eqb by lia. change (2 ^ 6) with 64.
    pose proof (Z.div_mod v 128 ltac:(lia)). pose proof (Z.mod_pos_bound v 128 ltac:(lia)).
    pose proof (Z.div_mod v 64 ltac:(lia)). pose proof (Z.mod_pos_bound v 64 ltac:(lia)).
    pose proof (Z.div_mod (v / 64) 2 ltac:(lia)). pose proof (Z.mod_pos_bound (v / 64) 2 ltac:(lia)).
    destruct (Z.leb_spec 64 (v mod 128)); destruct (Z.eqb_spec (v / 64 mod 2) 1); lia. }
  rewrite T6.
  pose proof (Z.div_mod v 128 ltac:(lia)). pose proof (Z.mod_pos_bound v 128 ltac:(lia)).
  pose proof (Z.div_mod v 64 ltac:(lia)). pose proof (Z.mod_pos_bound v 64 ltac:(lia)).
  destruct (Z.ltb_spec v 128); cbn [negb obind].
  - assert (E : (if 64 <=? v mod 128 then 64 else 0) + v mod 64 = v) by (destruct (Z.leb_spec 64 (v mod 128)); lia).
    rewrite E, (lookup_full 256 t T v F) by lia. cbn [obind]. rewrite Z.lor_0_r. reflexivity.
  - assert (E : (if 64 <=? v mod 128 then 192 else 128) + v mod 64 = v) by (destruct (Z.leb_spec 64 (v mod 128)); lia).
    rewrite E, (lookup_full 256 t T v F) by lia. cbn [obind]. rewrite Z.lor_0_l. reflexivity.
Qed.

(** A stride that is a multiple of [m] bytes holds the last group. *)
Lemma group_fits : forall w n k str, 0 < n -> 0 < k -> 0 <= w -> w * k <= str -> (n * k | str) -> n * groups w n * k <= str.
Proof.
  intros w n k str N K W S (c & C). destruct (groups_bounds w n N W) as (G0 & G1). subst str.
  assert (w <= c * n) by nia. assert (groups w n <= c).
  { assert (n * groups w n < n * (c + 1)) by nia. nia. }
  replace (c * (n * k)) with (n * c * k) by ring. apply Z.mul_le_mono_nonneg_r; [lia|]. apply Z.mul_le_mono_nonneg_l; lia.
Qed.

Lemma lutPlane_spec : forall al d w h p q T, alignment al ->
  (ld_bytesIn d = 1 \/ ld_bytesIn d = 2) -> (let ko := f_bytes (vi_fmt (ld_out d)) in ko = 1 \/ ko = 2 \/ ko = 4) ->
  (ld_vbmi d = true -> al = 64) ->
  wfPlane (ld_bytesIn d) p w h -> (al | p_stride p) -> (forall a, 0 <= b_data (p_buf p) a < 256) ->
  wfPlane (f_bytes (vi_fmt (ld_out d))) q w h -> (al | p_stride q) ->
  full (2 ^ (8 * ld_bytesIn d)) (ld_tbl d) T -> (forall v, 0 <= T v < 256 ^ f_bytes (vi_fmt (ld_out d))) ->
  exists m, lutPlane al d w h p q = Ok m /\ b_size m = b_size (p_buf q) /\
    same (imageOf (f_bytes (vi_fmt (ld_out d))) (mkPl (p_stride q) m) w h) (mapped T (imageOf (ld_bytesIn d) p w h)).
Proof.
  intros al d w h p q T A KI KO VB WP AP BY WQ AQ F TR. unfold lutPlane. cbv zeta in KO |- *.
  set (kin := ld_bytesIn d) in *. set (ko := f_bytes (vi_fmt (ld_out d))) in *.
  assert (SZ : 2 ^ (8 * kin) = 256 ^ kin) by (destruct KI as [-> | ->]; reflexivity).
  assert (INR : forall x y, 0 <= i_at (imageOf kin p w h) x y < 2 ^ (8 * kin)).
  { intros. rewrite SZ. apply image_range; [lia | exact BY]. }
  assert (AL : (32 | p_stride p) /\ (32 | p_stride q)).
  { assert (32 | al) by (destruct A as [-> | ->]; [exists 1 | exists 2]; reflexivity).
    split; eapply Z.divide_trans; eassumption. }
  assert (DIV : forall m s, (m | 32) -> (32 | s) -> (m | s)) by (intros; eapply Z.divide_trans; eassumption).
  pose proof WP as (W0 & H0 & SP & BP). pose proof WQ as (_ & _ & SQ & BQ).
  assert (GR : forall n k s, 0 < n -> 0 < k -> w * k <= s -> (n * k | 32) -> (32 | s) -> n * groups w n * k <= s).
  { intros n k s N K S D1 D2. apply group_fits; auto; eapply DIV; eassumption. }
  destruct ((kin =? 1) && (ko =? 1) && ld_vbmi d) eqn:VBM.
  - apply andb_prop in VBM. destruct VBM as (VBM & V1). apply andb_prop in VBM. destruct VBM as (V2 & V3).
    apply Z.eqb_eq in V2. apply Z.eqb_eq in V3. rewrite V2, V3 in *. clear V2 V3. specialize (VB V1). rewrite VB in *. clear A VB.
    assert (D64 : 64 * groups w 64 * 1 <= p_stride p /\ 64 * groups w 64 * 1 <= p_stride q).
    { split; apply group_fits; lia || assumption. }
    apply (drawGroups_spec 1 w h (fun x y => T (i_at (imageOf 1 p w h) x y))); try lia; auto.
    + intros j y J Y. unfold vbmiGroup.
      assert (M1 : (y * p_stride p + 64 * j) mod 64 = 0).
      { apply Z.mod_divide; [lia|]. apply Z.divide_add_r; [apply Z.divide_mul_r; assumption | exists j; lia]. }
      assert (M2 : (y * p_stride q + 64 * j) mod 64 = 0).
      { apply Z.mod_divide; [lia|]. apply Z.divide_add_r; [apply Z.divide_mul_r; assumption | exists j; lia]. }
      rewrite M1, M2. change (64 mod 64) with 0. rewrite Z.eqb_refl. cbn [andb].
      destruct (loadGroup 1 p w h 64 j y) as (l & E & L & R & AT); try lia; auto.
      replace (y * p_stride p + 64 * j) with (y * p_stride p + 64 * j * 1) by lia. rewrite Z2Nat.inj_pos in E. change (Pos.to_nat 64) with 64%nat in E. rewrite E. cbn [obind].
      rewrite (mapO_spec _ T).
      * exists (map T l). split; [reflexivity|]. rewrite zlength_map. split; [exact L|]. intros t T0 _. rewrite nthz_map, AT by lia. reflexivity.
      * intros v I. apply vbmiLane_spec; auto; [intros; apply TR|]. apply (nthz_bound_In _ l R v I).
  - assert (LK : forall l, (forall t v, nthz l t = Some v -> 0 <= v < 256 ^ kin) ->
             mapO (lookup (2 ^ (8 * kin)) (ld_tbl d)) l = Ok (map T l)).
    { intros l R. apply mapO_spec. intros v I. apply lookup_full; [exact F|]. rewrite SZ. apply (nthz_bound_In _ l R v I). }
    clear VBM. destruct KO as [E1|[E1|E1]]; rewrite E1 in *; cbn [Z.eqb Pos.eqb].
    + apply (drawGroups_spec 1 w h (fun x y => T (i_at (imageOf kin p w h) x y))); try lia; auto.
      * apply GR; try lia; [exists 4; reflexivity | tauto].
      * intros j y J Y. unfold lutGroup8.
        destruct (loadGroup kin p w h 8 j y) as (l & E & L & R & AT); try lia; auto.
        { apply GR; try lia; [|tauto]. destruct KI as [-> | ->]; [exists 4 | exists 2]; reflexivity. }
        change (Z.to_nat 8) with 8%nat in E. rewrite E. cbn [obind]. rewrite LK by exact R. cbn [obind].
        change [0; 8; 16; 24; 32; 40; 48; 56] with (map (fun t => 8 * t) (zseq 8)).
        rewrite lanes_pack.
        -- exists (map T l). split; [reflexivity|]. rewrite zlength_map. split; [exact L|]. intros t T0 _. rewrite nthz_map, AT by lia. reflexivity.
        -- lia.
        -- rewrite zlength_map. exact L.
        -- intros v I. apply in_map_iff in I. destruct I as (u & <- & _). apply TR.
    + apply (drawGroups_spec 2 w h (fun x y => T (i_at (imageOf kin p w h) x y))); try lia; auto.
      * apply GR; try lia; [exists 4; reflexivity | tauto].
      * intros j y J Y. unfold lutGroup16.
        destruct (loadGroup kin p w h 4 j y) as (l & E & L & R & AT); try lia; auto.
        { apply GR; try lia; [|tauto]. destruct KI as [-> | ->]; [exists 8 | exists 4]; reflexivity. }
        change (Z.to_nat 4) with 4%nat in E. rewrite E. cbn [obind]. rewrite LK by exact R. cbn [obind].
        change [0; 16; 32; 48] with (map (fun t => 16 * t) (zseq 4)).
        rewrite lanes_pack.
        -- exists (map T l). split; [reflexivity|]. rewrite zlength_map. split; [exact L|]. intros t T0 _. rewrite nthz_map, AT by lia. reflexivity.
        -- lia.
        -- rewrite zlength_map. exact L.
        -- intros v I. apply in_map_iff in I. destruct I as (u & <- & _). apply TR.
    + apply (drawPlane_spec 4 w h (fun x y => T (i_at (imageOf kin p w h) x y))); try lia; auto.
      intros x y X Y. split; [|apply TR]. unfold lutOne. rewrite (loadS_at kin p w h) by (lia || assumption). cbn [obind].
      apply lookup_full; [exact F | apply INR].
Qed.
