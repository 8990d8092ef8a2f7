(** The square convolution kernels on whole planes. *)
From Coq Require Import ZArith List Lia Bool.
From Coq Require Import SpecFloat.
From Verif Require Import Common ImageSpec PlaneMem Spatial SpatialLemmas Pixel PixelLemmas PixelSpec Lut LutLemmas Soft GenericSpec Generic GenericLemmas GenericOps GenericPlanes
  Simd MergeSimdLemmas GenericSimd GenericSimdLanes GenericSimdFloat GenericSimdOps SquareSimd SquareSimdFloat SquareSimdLanes.
Import Soft ListNotations.
Open Scope Z_scope.

(** ** Runs of blocks *)

Section Runs.
Variables (k w base : Z) (val : Z -> Z).
Hypothesis K : 1 <= k.
Hypothesis B0 : 0 <= base.
Variable m0 : pbuf.
Hypothesis SZ : base + w * k <= b_size m0.
Let rd := rowed k w base val.

Lemma rowed_weaken : forall (P Q : Z -> Prop) m, (forall x, 0 <= x < w -> Q x -> P x) -> rd P m0 m -> rd Q m0 m.
Proof. intros P Q m I (R1 & R2 & R3). split; [exact R1|]. split; [|exact R3]. intros x X q. apply R2; auto. Qed.

Lemma storeBlock_ok : forall P m j N, 0 <= j -> j + Z.of_nat N <= w -> rd P m0 m ->
  exists m', storeLanes k m (base + j * k) (map (fun t => val (j + Z.of_nat t)) (seq 0 N)) = Ok m' /\ rd (fun u => P u \/ j <= u < j + Z.of_nat N) m0 m'.
Proof.
  intros P m j N J E (R1 & R2 & R3). set (l := map _ _). assert (L : zlength l = Z.of_nat N) by (unfold l, zlength; rewrite map_length, seq_length; reflexivity).
  assert (B : (j + Z.of_nat N) * k <= w * k) by (apply Z.mul_le_mono_nonneg_r; lia). assert (0 <= j * k) by (apply Z.mul_nonneg_nonneg; lia).
  destruct (storeLanes_spec k l m (base + j * k) K ltac:(lia)) as (m' & Em & S & A & O).
  { rewrite L, R1. lia. }
  exists m'. split; [exact Em|]. rewrite L in O. split; [congruence|]. split.
  - intros x X Q t T. destruct (Z.le_gt_cases j x) as [G|G]; [destruct (Z.le_gt_cases (j + Z.of_nat N) x) as [G2|G2]|].
    + rewrite O by (right; assert ((j + Z.of_nat N) * k <= x * k) by (apply Z.mul_le_mono_nonneg_r; lia); lia). apply R2; [exact X | destruct Q; [assumption | lia] | exact T].
    + rewrite <- (A (x - j) (val x)) with (j := t); [f_equal; ring | | exact T]. unfold l, nthz. destruct (Z.ltb_spec (x - j) 0); [lia|].
      rewrite (map_nth_error _ (Z.to_nat (x - j)) (seq 0 N) (d := Z.to_nat (x - j))); [f_equal; f_equal; lia|].
      rewrite (nth_error_nth' _ 0%nat) by (rewrite seq_length; lia). rewrite seq_nth by lia. reflexivity.
    + rewrite O by (left; assert ((x + 1) * k <= j * k) by (apply Z.mul_le_mono_nonneg_r; lia); lia). apply R2; [exact X | destruct Q; [assumption | lia] | exact T].
  - intros b Hb. rewrite O by (assert (0 <= Z.of_nat N * k) by (apply Z.mul_nonneg_nonneg; lia); lia). apply R3. exact Hb.
Qed.

Lemma run_ok : forall pels blk put stop j P m, 0 < pels -> 0 < blk ->
  (forall c Q m1, 0 <= c -> let x := j + c * pels in x + pels <= stop -> rd Q m0 m1 -> exists m', put x m1 = Ok m' /\ rd (fun u => Q u \/ x <= u < x + pels) m0 m') ->
  rd P m0 m -> let e := j + Z.max 0 ((stop - j) / (pels * blk)) * (pels * blk) in
  exists m', run blk pels put stop j m = Ok (m', e) /\ rd (fun u => P u \/ j <= u < e) m0 m'.
Proof.
  intros pels blk put stop j P m PP BP PUT R e. unfold run. set (cnt := Z.max 0 ((stop - j) / (pels * blk))) in *.
  assert (UB : 0 <= cnt /\ (0 < cnt -> j + cnt * (pels * blk) <= stop)).
  { unfold cnt. split; [lia|]. intros C. replace (Z.max 0 ((stop - j) / (pels * blk))) with ((stop - j) / (pels * blk)) by lia.
    pose proof (Z.mul_div_le (stop - j) (pels * blk) ltac:(nia)). lia. }
  destruct UB as (C0 & C1).
  destruct (forZ_inv (fun t mm => rd (fun u => P u \/ j <= u < j + t * (pels * blk)) m0 mm)
    (fun t mm => forZ blk (fun b mm => put (j + (t * blk + b) * pels) mm) mm) cnt m C0) as (m' & F & Q).
  - apply (rowed_weaken P); [|exact R]. intros x X [Px|Px]; [exact Px | lia].
  - intros t mm T Rm.
    destruct (forZ_inv (fun b mm => rd (fun u => P u \/ j <= u < j + (t * blk + b) * pels) m0 mm)
      (fun b mm => put (j + (t * blk + b) * pels) mm) blk mm ltac:(lia)) as (m2 & F2 & Q2).
    + apply (rowed_weaken (fun u => P u \/ j <= u < j + t * (pels * blk))); [|exact Rm]. intros x X [Px|Px]; [left; exact Px | right; nia].
    + intros b m3 Bb R3. destruct (PUT (t * blk + b) (fun u => P u \/ j <= u < j + (t * blk + b) * pels) m3) as (m4 & E4 & R4).
      * assert (0 <= t * blk) by nia. lia.
      * assert (LE : (t * blk + b + 1) * pels <= cnt * blk * pels) by (apply Z.mul_le_mono_nonneg_r; [lia|]; assert ((t + 1) * blk <= cnt * blk) by (apply Z.mul_le_mono_nonneg_r; lia); lia). lia.
      * exact R3.
      * exists m4. split; [exact E4|]. apply (rowed_weaken (fun u => (P u \/ j <= u < j + (t * blk + b) * pels) \/ j + (t * blk + b) * pels <= u < j + (t * blk + b) * pels + pels)); [|exact R4].
        intros x X [Px|Px]; [tauto|]. destruct (Z.le_gt_cases (j + (t * blk + b) * pels) x); [right; lia | left; right; lia].
    + exists m2. split; [exact F2|]. apply (rowed_weaken (fun u => P u \/ j <= u < j + (t * blk + blk) * pels)); [|exact Q2].
      intros x X [Px|Px]; [left; exact Px | right; replace ((t * blk + blk) * pels) with ((t + 1) * (pels * blk)) by ring; exact Px].
  - rewrite F. cbn [obind]. exists m'. split; [reflexivity | exact Q].
Qed.

Definition putOk (pels lo hi : Z) (put : Z -> pbuf -> outcome pbuf) : Prop :=
  forall x Q m1, lo <= x -> x + pels <= hi -> rd Q m0 m1 -> exists m', put x m1 = Ok m' /\ rd (fun u => Q u \/ x <= u < x + pels) m0 m'.

(** The column where the interior ends. *)
Definition interiorEnd (pels s : Z) : Z := if s + pels <=? w - s then w - s else s.

Lemma interior_ok : forall nb n put P m, (1 <= nb)%nat -> 0 <= n / 2 -> putOk (8 * Z.of_nat nb) (n / 2) (w - n / 2) put -> rd P m0 m -> 0 <= w ->
  exists m', interior nb k n put w m = Ok (m', interiorEnd (8 * Z.of_nat nb) (n / 2)) /\ rd (fun u => P u \/ n / 2 <= u < interiorEnd (8 * Z.of_nat nb) (n / 2)) m0 m'.
Proof.
  intros nb n put P m NB S PUT R W. unfold interior. set (s := n / 2) in *. change (ipels nb) with (8 * Z.of_nat nb). set (p := 8 * Z.of_nat nb) in *.
  assert (PP : 0 < p) by (unfold p; lia). set (stop := if s <? w then w - s else 0).
  assert (ST : s < stop -> stop = w - s) by (unfold stop; destruct (Z.ltb_spec s w); lia).
  assert (ST2 : s <= w - s -> s < w -> stop = w - s) by (unfold stop; destruct (Z.ltb_spec s w); lia).
  assert (SW : w <= s -> stop = 0) by (unfold stop; destruct (Z.ltb_spec s w); lia).
  assert (SW2 : s < w -> stop = w - s) by (unfold stop; destruct (Z.ltb_spec s w); lia).
  assert (PUT' : forall j, s <= j -> forall c Q m1, 0 <= c -> let x := j + c * p in x + p <= stop -> rd Q m0 m1 -> exists m', put x m1 = Ok m' /\ rd (fun u => Q u \/ x <= u < x + p) m0 m').
  { intros j J c Q m1 C x XS Rm. assert (j <= x) by (unfold x; nia). apply PUT; [lia | rewrite <- ST by lia; exact XS | exact Rm]. }
  (* the groups *)
  assert (G : exists m1 e1, (if 1 <? groupOf nb k n then run (groupOf nb k n) p put stop s m else Ok (m, s)) = Ok (m1, e1) /\
    rd (fun u => P u \/ s <= u < e1) m0 m1 /\ s <= e1 /\ (e1 = s \/ s + p <= e1 <= stop)).
  { destruct (Z.ltb_spec 1 (groupOf nb k n)) as [GR|GR].
    - destruct (run_ok p (groupOf nb k n) put stop s P m PP ltac:(lia) (PUT' s (Z.le_refl s)) R) as (m1 & E1 & R1). exists m1. eexists. split; [exact E1|]. split; [exact R1|].
      set (bp := p * groupOf nb k n) in *. assert (BP : p <= bp) by (unfold bp; nia). clearbody bp.
      destruct (Z.max_spec 0 ((stop - s) / bp)) as [(M & ->)|(M & ->)]; [|lia].
      pose proof (Z.mul_div_le (stop - s) bp ltac:(lia)). assert (1 * p <= (stop - s) / bp * bp) by (apply Z.mul_le_mono_nonneg; lia). lia.
    - exists m, s. split; [reflexivity|]. split; [|lia]. apply (rowed_weaken P); [|exact R]. intros x X [Q|Q]; [exact Q | lia]. }
  destruct G as (m1 & e1 & -> & R1 & E1 & E2). cbn [obind fst snd].
  destruct (run_ok p 1 put stop e1 _ m1 PP ltac:(lia) (PUT' e1 E1) R1) as (m2 & -> & R2). cbn [obind fst snd].
  set (cnt := Z.max 0 ((stop - e1) / (p * 1))) in *. rewrite Z.mul_1_r in *. set (e2 := e1 + cnt * p) in *.
  assert (C2 : e1 <= e2 /\ (stop < e1 + p -> e2 = e1) /\ (e1 + p <= stop -> stop - p < e2 <= stop)).
  { unfold e2, cnt. rewrite Z.mul_1_r.  pose proof (Z.div_mod (stop - e1) p ltac:(lia)) as DM. pose proof (Z.mod_pos_bound (stop - e1) p PP) as MB. split; [nia|]. split.
    - intros L. replace (Z.max 0 ((stop - e1) / p)) with 0; [lia|]. assert ((stop - e1) / p < 1) by (apply Z.div_lt_upper_bound; lia). lia.
    - intros L. assert (1 <= (stop - e1) / p) by (apply Z.div_le_lower_bound; lia). replace (Z.max 0 ((stop - e1) / p)) with ((stop - e1) / p) by lia. nia. }
  clearbody e2. destruct C2 as (C2 & C3 & C4). unfold interiorEnd.
  destruct (Z.leb_spec (s + p) (w - s)) as [FIT|FIT].
  - rewrite (SW2 ltac:(lia)) in *. destruct (Z.leb_spec (s + p) (w - s)); [|lia]. rewrite andb_true_r. destruct (Z.ltb_spec e2 (w - s)) as [L|L].
    + destruct (run_ok p 1 put (w - s) (w - s - p) _ m2 PP ltac:(lia) (PUT' (w - s - p) ltac:(lia)) R2) as (m3 & -> & R3).
      rewrite Z.mul_1_r in *. replace (w - s - (w - s - p)) with p in * by lia. rewrite Z.div_same in * by lia. cbn [Z.max Z.compare] in *. rewrite Z.mul_1_l in *.
      replace (w - s - p + p) with (w - s) in * by lia. exists m3. split; [reflexivity|]. apply (rowed_weaken (fun u => ((P u \/ s <= u < e1) \/ e1 <= u < e2) \/ w - s - p <= u < w - s)); [|exact R3].
      intros x X [Q|Q]; [auto|]. destruct (Z.le_gt_cases (w - s - p) x); [right; lia|]. left. destruct (Z.le_gt_cases e1 x); [right; lia | left; right; lia].
    + assert (e2 = w - s) as -> by lia. exists m2. split; [reflexivity|]. apply (rowed_weaken (fun u => (P u \/ s <= u < e1) \/ e1 <= u < w - s)); [|exact R2].
      intros x X [Q|Q]; [auto|]. destruct (Z.le_gt_cases e1 x); [right; lia | left; right; lia].
  - assert (NS : stop < s + p) by (destruct (Z.le_gt_cases w s); [rewrite SW by lia; lia | rewrite SW2 by lia; lia]).
    assert (e1 = s) as -> by lia. rewrite C3 in * by lia. replace (s + p <=? stop) with false by (symmetry; apply Z.leb_gt; lia). rewrite andb_false_r.
    exists m2. split; [reflexivity|]. apply (rowed_weaken (fun u => (P u \/ s <= u < s) \/ s <= u < s)); [|exact R2]. intros x X [Q|Q]; [auto | lia].
Qed.

(** One row. *)
Lemma sqRow_ok : forall n g src h i e inner, 0 <= n / 2 -> n / 2 <= e -> 0 <= w ->
  (exists m', inner m0 = Ok (m', e) /\ rd (fun u => n / 2 <= u < e) m0 m') ->
  (forall x, 0 <= x < w -> (x < n / 2 \/ e <= x) -> scalarPx k n g src w h i x = Ok (val x)) ->
  exists m', sqRow k n g src w h i base inner m0 = Ok m' /\ rd (fun _ => True) m0 m'.
Proof.
  intros n g src h i e inner S E W (m1 & E1 & R1) SC. unfold sqRow. rewrite E1. cbn [obind fst snd]. set (s := n / 2) in *.
  destruct (paintRow_ok k w base val K [ (0, Z.min s w, scalarPx k n g src w h i); (Z.max e s, w, scalarPx k n g src w h i) ] (fun u => s <= u < e) m0 m1 B0 SZ) as (m' & F & Q).
  - apply Forall_cons; [|apply Forall_cons; [|apply Forall_nil]]; (split; [lia|]; split; [lia|]; intros x X; apply SC; lia).
  - exact R1.
  - exists m'. split; [exact F|]. apply (rowed_weaken (fun u => s <= u < e \/ covered [ (0, Z.min s w, scalarPx k n g src w h i); (Z.max e s, w, scalarPx k n g src w h i) ] u)); [|exact Q].
    intros x X _. destruct (Z.le_gt_cases s x) as [L|L].
    + destruct (Z.le_gt_cases e x); [|left; lia]. right. unfold covered. apply Exists_cons_tl, Exists_cons_hd. cbn [fst snd]. lia.
    + right. apply Exists_cons_hd. cbn [fst snd]. lia.
Qed.
End Runs.

(** Planes painted row by row. *)
Lemma plane_ok : forall k w h g row dst, 1 <= k -> wfPlane k dst w h ->
  (forall y m, 0 <= y < h -> b_size m = b_size (p_buf dst) -> exists m', row y m = Ok m' /\ rowed k w (y * p_stride dst) (fun x => g x y) (fun _ => True) m m') ->
  (forall x y, 0 <= x < w -> 0 <= y < h -> 0 <= g x y < 256 ^ k) ->
  exists m, forZ h row (p_buf dst) = Ok m /\ b_size m = b_size (p_buf dst) /\ same (imageOf k (mkPl (p_stride dst) m) w h) (mkI w h g).
Proof.
  intros k w h g row dst K (W & H & S & B) V R. set (str := p_stride dst) in *.
  destruct (forZ_inv (fun y m => b_size m = b_size (p_buf dst) /\ painted k w h g str y 0 m) row h (p_buf dst) H) as (m & E & M1 & M2).
  - split; [reflexivity|]. intros u v U V' C. lia.
  - intros y m Y (M1 & M2). destruct (V y m Y M1) as (m' & E & Q1 & Q2 & Q3).
    exists m'. split; [exact E|]. split; [congruence|].
    intros u v U V' D j J. assert (v < y \/ v = y) as [L| ->] by lia.
    + rewrite Q3; [apply M2; auto; lia|]. left. assert (u * k + k <= w * k) by nia. nia.
    + apply Q2; auto.
  - exists m. split; [exact E|]. split; [exact M1|]. apply (painted_image k w h g K str 0 m H R M2).
Qed.

Section Planes.
Variables (k n : Z) (g : gparams) (F : Z -> Z) (src : plane) (w h : Z) (dst : plane).
Hypothesis K : smallk k.
Hypothesis N : n = 5 \/ n = 7 \/ n = 9 \/ n = 11.
Hypothesis LEN : zlength (g_matrix g) = n * n.
Hypothesis LM : legalMatrix (g_matrix g).
Hypothesis MV : 0 <= g_maxval g < 256 ^ k.
Hypothesis FN : finishes k g F.
Hypothesis W : 1 <= w < 2 ^ 30.
Hypothesis H : 1 <= h < 2 ^ 30.
Hypothesis WS : wfPlane k src w h.
Hypothesis WD : wfPlane k dst w h.
Hypothesis BB : byteBuf src.
Let a := imageOf k src w h.
Let s := n / 2.

Lemma half_is : 2 * s + 1 = n /\ 2 <= s <= 5.
Proof. unfold s. destruct N as [->|[->|[->| ->]]]; split; (reflexivity || (vm_compute; split; discriminate)). Qed.

Lemma scalarPx_spec : forall x y, 0 <= x < w -> 0 <= y < h ->
  scalarPx k n g src w h y x = Ok (Z.min (F (square n (g_matrix g) a x y)) (g_maxval g)) /\ 0 <= F (square n (g_matrix g) a x y) < 256 ^ k.
Proof.
  intros x y X Y. destruct half_is as (S1 & S2). pose proof (smallk_pow k K) as PK. unfold scalarPx. fold s.
  assert (AB : forall x y, 0 <= i_at a x y <= 256 ^ k - 1) by (intros u v; pose proof (image_range k src w h u v ltac:(destruct K; lia) BB) as IR; fold a in IR; lia).
  rewrite (mapO_spec _ (fun t => let '(c, r) := t in (GenericSpec.coef (g_matrix g) (r * n + c), i_at a (mirrored w (x + c - s)) (mirrored h (y + r - s))))).
  2:{ intros (c & r) I. apply taps_in in I. unfold sqMirror. rewrite mirrorIndex_spec by lia. unfold obind. rewrite mirrorIndex_spec by lia.
      rewrite (sampleAt_spec k src w h) by (first [exact WS | apply mirrored_in; lia | destruct K; lia]). rewrite coef_nthz by nia. reflexivity. }
  set (l := map _ (tapsOf n)).
  assert (C : cells (256 ^ k - 1) l).
  { unfold cells, l. rewrite Forall_map, Forall_forall. intros (c & r) _. cbn [fst snd]. split; [apply coef_legal; exact LM | apply AB]. }
  assert (LL : zlength l = n * n) by (unfold l; rewrite zlength_map, taps_length by lia; reflexivity).
  assert (E : sumL (map (fun cv : Z * Z => fst cv * snd cv) l) = square n (g_matrix g) a x y).
  { unfold l. rewrite map_map. unfold square. change (i_w a) with w. change (i_h a) with h. fold s.
    rewrite <- (taps_sum n (fun c r => GenericSpec.coef (g_matrix g) (r * n + c) * i_at a (mirrored w (x + c - s)) (mirrored h (y + r - s)))).
    f_equal. apply map_ext. intros (c & r). reflexivity. }
  destruct (dot_cells ((1 <? k) && (5 <? n)) (256 ^ k - 1) k l ltac:(lia) K ltac:(lia) C) as (D1 & D2).
  { rewrite LL. nia. }
  { rewrite LL. destruct K as [->| ->]; [left; reflexivity|]. destruct N as [->|[->|[->| ->]]]; try exact I. right. lia. }
  unfold obind. rewrite D1, E. rewrite E in D2. destruct (FN _ D2) as (-> & R). rewrite Z.mod_small by lia. split; [reflexivity | exact R].
Qed.

Lemma vfinish_range : forall v, 0 <= vfinish k n g v < 256 ^ k.
Proof.
  intros v. unfold vfinish. pose proof MV as M. destruct K as [Q|Q]; rewrite Q in *; cbn [Z.eqb Pos.eqb].
  - change (256 ^ 1) with 256. unfold satu8of16. rewrite clampZ_minmax; lia.
  - change (256 ^ 2) with 65536 in *. unfold minu, satu16of32. rewrite clampZ_minmax by lia. destruct (_ <? _); lia.
Qed.

(** Vector sums in the columns from [s] to [e], scalar ones elsewhere. *)
Definition mixed (e : Z) : image := mkI w h (fun x y => let q := square n (g_matrix g) a x y in
  if (s <=? x) && (x <? e) then vfinish k n g q else Z.min (F q) (g_maxval g)).

Lemma mixed_ok : forall e inner, s <= e ->
  (forall y m, 0 <= y < h -> b_size m = b_size (p_buf dst) -> exists m', inner y m = Ok (m', e) /\
     rowed k w (y * p_stride dst) (fun x => i_at (mixed e) x y) (fun u => s <= u < e) m m') ->
  exists m, forZ h (fun y m => sqRow k n g src w h y (y * p_stride dst) (inner y) m) (p_buf dst) = Ok m /\ b_size m = b_size (p_buf dst) /\
    same (imageOf k (mkPl (p_stride dst) m) w h) (mixed e).
Proof.
  intros e inner E IN. destruct half_is as (S1 & S2). assert (K1 : 1 <= k) by (destruct K; lia). destruct WD as (_ & _ & ST & SZ).
  apply plane_ok; [exact K1 | exact WD | |].
  - intros y m Y M. apply (sqRow_ok k w (y * p_stride dst) (fun x => i_at (mixed e) x y) K1) with (e := e); [nia | rewrite M, SZ; nia | fold s; lia | exact E | lia | |].
    + destruct (IN y m Y M) as (m' & E' & R'). exists m'. split; [exact E' | exact R'].
    + intros x X O. destruct (scalarPx_spec x y X Y) as (-> & _). f_equal. unfold mixed. cbn [i_at]. cbv zeta. fold s in O.
      replace ((s <=? x) && (x <? e)) with false; [reflexivity|]. symmetry. apply andb_false_iff. destruct O; [left; apply Z.leb_gt | right; apply Z.ltb_ge]; lia.
  - intros x y X Y. cbv zeta. destruct (scalarPx_spec x y X Y) as (_ & R). pose proof (vfinish_range (square n (g_matrix g) a x y)) as V.
    destruct ((s <=? x) && (x <? e)); [exact V | lia].
Qed.

Lemma squareV_spec : forall nb, goodNb nb ->
  exists m, squareV nb k n g src w h dst = Ok m /\ b_size m = b_size (p_buf dst) /\
    same (imageOf k (mkPl (p_stride dst) m) w h) (mixed (interiorEnd w (8 * Z.of_nat nb) s)).
Proof.
  intros nb NB. destruct half_is as (S1 & S2). assert (K1 : 1 <= k) by (destruct K; lia). destruct WD as (_ & _ & ST & SZ). unfold squareV.
  set (e := interiorEnd w (8 * Z.of_nat nb) s). assert (E : s <= e) by (unfold e, interiorEnd; destruct (Z.leb_spec (s + 8 * Z.of_nat nb) (w - s)); lia).
  assert (EW : s + 8 * Z.of_nat nb <= w - s -> e = w - s) by (unfold e, interiorEnd; destruct (Z.leb_spec (s + 8 * Z.of_nat nb) (w - s)); lia).
  apply (mixed_ok e); [exact E|]. intros y m Y M.
  destruct (interior_ok k w (y * p_stride dst) (fun x => i_at (mixed e) x y) K1 m nb n
    (fun j m => obind (block nb k n g src h y j) (fun v => storeLanes k m (y * p_stride dst + j * k) v)) (fun _ => False) m) as (m' & E' & R').
  - destruct NB; subst nb; lia.
  - fold s. lia.
  - intros x Q m1 X XE R1. fold s in X, XE.
    rewrite (block_spec nb k n g src w h NB K N LEN LM MV W H WS BB) by (try assumption; lia). cbn [obind].
    replace (map _ (seq 0 (8 * nb))) with (map (fun t => i_at (mixed e) (x + Z.of_nat t) y) (seq 0 (8 * nb))).
    + replace (8 * Z.of_nat nb) with (Z.of_nat (8 * nb)) by lia. apply (storeBlock_ok k w (y * p_stride dst) (fun x => i_at (mixed e) x y)); [exact K1 | nia | rewrite M, SZ; nia | lia | lia | exact R1].
    + apply map_ext_in. intros t T. apply in_seq in T. unfold mixed. cbn [i_at]. cbv zeta.
      replace ((s <=? x + Z.of_nat t) && (x + Z.of_nat t <? e)) with true; [reflexivity|]. symmetry. apply andb_true_iff. split; [apply Z.leb_le; lia|]. apply Z.ltb_lt. rewrite EW by lia. lia.
  - split; [reflexivity|]. split; [intros; contradiction | reflexivity].
  - lia.
  - exists m'. split; [exact E'|]. apply (rowed_weaken k w (y * p_stride dst) _ m (fun u => False \/ n / 2 <= u < interiorEnd w (8 * Z.of_nat nb) (n / 2))); [|exact R'].
    intros x X Q. right. exact Q.
Qed.
End Planes.

(** ** VNNI *)

Lemma s8_wrap8 : forall v, -128 <= v <= 127 -> s8 (wrapu8 v) = v.
Proof.
  intros v V. unfold s8, wrapu8. pose proof (Z.mod_pos_bound v 256 ltac:(lia)). pose proof (Z.div_mod v 256 ltac:(lia)).
  assert (v / 256 = 0 \/ v / 256 = -1) as [D|D] by lia; destruct (Z.ltb_spec (v mod 256) 128); lia.
Qed.

Section Vnni.
Variables (n : Z) (g : gparams) (F : Z -> Z) (src : plane) (w h : Z) (dst : plane).
Hypothesis N : n = 5 \/ n = 7 \/ n = 9 \/ n = 11.
Hypothesis LEN : zlength (g_matrix g) = n * n.
Hypothesis LM : legalMatrix (g_matrix g).
Hypothesis SM : convInt8 (g_matrix g) = true.
Hypothesis MV : 0 <= g_maxval g < 256 ^ 1.
Hypothesis FN : finishes 1 g F.
Hypothesis W : 1 <= w < 2 ^ 30.
Hypothesis H : 1 <= h < 2 ^ 30.
Hypothesis WS : wfPlane 1 src w h.
Hypothesis WD : wfPlane 1 dst w h.
Hypothesis BB : byteBuf src.
Let a := imageOf 1 src w h.
Let s := n / 2.
Let ss := p_stride src.
Let K : smallk 1 := or_introl eq_refl.

(** A register of 64 bytes of the row from column [x], right in the columns of the picture. *)
Definition window64 (row x : Z) (v : vec) : Prop := forall t, (t < 64)%nat -> x + Z.of_nat t < w -> nth t v 0 = i_at a (x + Z.of_nat t) row.

Lemma load64_spec : forall row x, 0 <= row < h -> 0 <= x -> x + 64 <= ss -> exists v, load64 src row x = Ok v /\ window64 row x v.
Proof.
  intros row x R X E. destruct WS as (_ & _ & ST & SZ). unfold load64.
  destruct (loadLanes_spec 1 64 (p_buf src) (row * ss + x) ltac:(lia)) as (l & EL & L & V); [fold ss in ST; nia | rewrite SZ; fold ss; nia |].
  exists l. split; [exact EL|]. intros t T TW. specialize (V (Z.of_nat t) ltac:(lia)). unfold nthz in V. destruct (Z.ltb_spec (Z.of_nat t) 0); [lia|]. rewrite Nat2Z.id in V.
  rewrite (nth_error_nth _ _ 0 V). unfold a. cbn [imageOf i_at]. f_equal. fold ss. lia.
Qed.
Lemma load64masked_spec : forall row x, 0 <= row < h -> 0 <= x -> exists v, load64masked src row x (if x <? ss then ss - x else 0) = Ok v /\ window64 row x v.
Proof.
  intros row x R X. destruct WS as (_ & _ & ST & SZ). fold ss in ST, SZ. rewrite Z.mul_1_r in ST. unfold load64masked. destruct (Z.leb_spec 64 (if x <? ss then ss - x else 0)) as [L|L].
  - apply load64_spec; [exact R | exact X |]. destruct (Z.ltb_spec x ss); lia.
  - set (val := if x <? ss then ss - x else 0) in *.
    assert (VV : 0 <= val /\ (0 < val -> x + val = ss) /\ (val = 0 -> ss <= x)) by (unfold val; destruct (Z.ltb_spec x ss); lia).
    destruct VV as (V0 & V1 & V2). clearbody val.
    destruct (Z.eq_dec val 0) as [Z0|Z0].
    + subst val. cbn [Z.to_nat loadLanes obind]. eexists. split; [reflexivity|]. intros t T TW. lia.
    + destruct (loadLanes_spec 1 (Z.to_nat val) (p_buf src) (row * ss + x) ltac:(lia)) as (l & EL & LL & V); [nia | rewrite Z2Nat.id by lia; rewrite SZ; nia |].
      fold ss. rewrite EL. cbn [obind]. eexists. split; [reflexivity|]. intros t T TW. unfold zlength in LL.
      rewrite app_nth1 by lia. specialize (V (Z.of_nat t) ltac:(lia)). unfold nthz in V. destruct (Z.ltb_spec (Z.of_nat t) 0); [lia|]. rewrite Nat2Z.id in V.
      rewrite (nth_error_nth _ _ 0 V). unfold a. cbn [imageOf i_at]. f_equal. fold ss. lia.
Qed.

Let cf (i : Z) : Z := GenericSpec.coef (g_matrix g) i.
Lemma cf_byte : forall i, s8 (wrapu8 (coef g i)) = cf i.
Proof.
  intros i. apply s8_wrap8. change (coef g i) with (cf i). unfold cf, GenericSpec.coef.
  destruct (nth_in_or_default (Z.to_nat i) (g_matrix g) 0) as [I|E]; [|rewrite E; lia].
  unfold convInt8 in SM. rewrite forallb_forall in SM. specialize (SM _ I). apply andb_true_iff in SM. destruct SM as (S1 & S2). apply Z.leb_le in S1, S2. lia.
Qed.

Definition acc16 (u : nat -> Z) : vec := map u (seq 0 16).
Lemma acc16_ext : forall u v, (forall i, (i < 16)%nat -> u i = v i) -> acc16 u = acc16 v.
Proof. intros u v E. apply map_ext_in. intros i I. apply E. apply in_seq in I. lia. Qed.

Lemma nth_acc16 : forall u i, (i < 16)%nat -> nth i (acc16 u) 0 = u i.
Proof.
  intros u i I. unfold acc16. rewrite (nth_indep _ 0 (u 0%nat)) by (rewrite map_length, seq_length; exact I). rewrite map_nth, seq_nth by exact I. reflexivity.
Qed.

Lemma rowUpTo_min : forall row r x q d, 0 <= q -> 0 <= d -> rowUpTo 1 n g src w h row r x (Z.min n (4 * q + d + 1)) =
  rowUpTo 1 n g src w h row r x (Z.min n (4 * q + d)) + (if 4 * q + d <? n then cf (r * n + (4 * q + d)) * i_at a (x + (4 * q + d) - s) row else 0).
Proof.
  intros row r x q d Q D. destruct (Z.ltb_spec (4 * q + d) n).
  - rewrite !Z.min_r by lia. rewrite rowUpTo_succ by lia. reflexivity.
  - rewrite !Z.min_l by lia. lia.
Qed.

Lemma dpbusd_spec : forall row r j q A v, 0 <= row < h -> 0 <= q -> s <= j -> j + 16 <= w - s -> 4 * q < n + 3 -> window64 row (j - s + q * 4) v ->
  dpbusd (acc16 (fun i => wrapu32 (A i + rowUpTo 1 n g src w h row r (j + Z.of_nat i) (Z.min n (4 * q))))) v (groupTaps n g r q) =
  acc16 (fun i => wrapu32 (A i + rowUpTo 1 n g src w h row r (j + Z.of_nat i) (Z.min n (4 * (q + 1))))).
Proof.
  intros row r j q A v R Q J E QN V. unfold dpbusd. apply map_ext_in. intros i I. apply in_seq in I. rewrite nth_acc16 by lia.
  assert (S1 : 2 * s + 1 = n) by (unfold s; destruct N as [->|[->|[->| ->]]]; reflexivity).
  assert (T : forall d, 0 <= d < 4 -> nth (i + Z.to_nat d) v 0 * s8 (if q * 4 + d <? n then wrapu8 (coef g (r * n + (q * 4 + d))) else 0) =
    (if 4 * q + d <? n then cf (r * n + (4 * q + d)) * i_at a (j + Z.of_nat i + (4 * q + d) - s) row else 0)).
  { intros d D. replace (q * 4 + d) with (4 * q + d) by lia. destruct (Z.ltb_spec (4 * q + d) n).
    - rewrite V by lia. rewrite cf_byte. replace (j - s + q * 4 + Z.of_nat (i + Z.to_nat d)) with (j + Z.of_nat i + (4 * q + d) - s) by lia. ring.
    - change (s8 0) with 0. ring. }
  unfold window, groupTaps. change (zseq 4) with [0; 1; 2; 3]. cbn [seq map zip fold_left].
  pose proof (T 0 ltac:(lia)) as T0. pose proof (T 1 ltac:(lia)) as T1. pose proof (T 2 ltac:(lia)) as T2. pose proof (T 3 ltac:(lia)) as T3. cbv zeta.
  change (Z.to_nat 0) with 0%nat in T0. change (Z.to_nat 1) with 1%nat in T1. change (Z.to_nat 2) with 2%nat in T2. change (Z.to_nat 3) with 3%nat in T3.
  rewrite T0, T1, T2, T3. rewrite wrap_add. f_equal.
  pose proof (rowUpTo_min row r (j + Z.of_nat i) q 0 Q ltac:(lia)) as M0. pose proof (rowUpTo_min row r (j + Z.of_nat i) q 1 Q ltac:(lia)) as M1.
  pose proof (rowUpTo_min row r (j + Z.of_nat i) q 2 Q ltac:(lia)) as M2. pose proof (rowUpTo_min row r (j + Z.of_nat i) q 3 Q ltac:(lia)) as M3.
  replace (4 * q + 0 + 1) with (4 * q + 1) in M0 by lia. replace (4 * q + 1 + 1) with (4 * q + 2) in M1 by lia.
  replace (4 * q + 2 + 1) with (4 * q + 3) in M2 by lia. replace (4 * q + 3 + 1) with (4 * (q + 1)) in M3 by lia. replace (Z.min n (4 * q + 0)) with (Z.min n (4 * q)) in M0 by lia. lia.
Qed.

Lemma sumsVnni_spec : forall i j load, 0 <= i < h -> s <= j -> j + 16 <= w - s ->
  (forall row q, 0 <= row < h -> 0 <= q < (n + 3) / 4 -> exists v, load row (j - s + q * 4) = Ok v /\ window64 row (j - s + q * 4) v) ->
  sumsVnni n g src h i j load = Ok (acc16 (fun t => wrapu32 (square n (g_matrix g) a (j + Z.of_nat t) i))).
Proof.
  intros i j load I J E LD. unfold sumsVnni, overRows. fold s.
  assert (S1 : 2 * s + 1 = n /\ 2 <= s <= 5) by (unfold s; destruct N as [->|[->|[->| ->]]]; split; (reflexivity || (vm_compute; split; discriminate))).
  assert (GQ : 0 <= (n + 3) / 4 /\ Z.min n (4 * ((n + 3) / 4)) = n /\ 4 * ((n + 3) / 4) <= n + 3) by (destruct N as [->|[->|[->| ->]]]; split; (vm_compute; try split; congruence)).
  destruct (forZ_inv (fun r q => q = acc16 (fun t => wrapu32 (allUpTo 1 n g src w h i (j + Z.of_nat t) r)))
    (fun r (q : vec) => obind (sqMirror (i + r - s) h) (fun row =>
       forZ ((n + 3) / 4) (fun q a => obind (load row (j - s + q * 4)) (fun v => Ok (dpbusd a v (groupTaps n g r q)))) q)) n (repeat 0 16) ltac:(lia)) as (q & Fq & Q).
  - reflexivity.
  - intros r q R ->. unfold sqMirror. rewrite mirrorIndex_spec by lia. cbn [obind]. set (row := mirrored h (i + r - s)).
    assert (RW : 0 <= row < h) by (apply mirrored_in; lia).
    destruct (forZ_inv (fun u v => v = acc16 (fun t => wrapu32 (allUpTo 1 n g src w h i (j + Z.of_nat t) r + rowUpTo 1 n g src w h row r (j + Z.of_nat t) (Z.min n (4 * u)))))
      (fun q a => obind (load row (j - s + q * 4)) (fun v => Ok (dpbusd a v (groupTaps n g r q)))) ((n + 3) / 4)
      (acc16 (fun t => wrapu32 (allUpTo 1 n g src w h i (j + Z.of_nat t) r))) ltac:(lia)) as (v & Fv & V).
    + apply acc16_ext. intros t T. rewrite Z.mul_0_r, Z.min_r by lia. change (rowUpTo 1 n g src w h row r (j + Z.of_nat t) 0) with 0. f_equal. lia.
    + intros u v U ->. destruct (LD row u RW U) as (x & -> & WX). cbn [obind]. eexists. split; [reflexivity|].
      rewrite dpbusd_spec by (auto; lia). reflexivity.
    + exists v. split; [exact Fv|]. rewrite V. apply acc16_ext. intros t T. rewrite allUpTo_succ by lia. fold s. fold row. destruct GQ as (_ & -> & _). reflexivity.
  - etransitivity; [exact Fq|]. rewrite Q. f_equal. apply acc16_ext. intros t T. f_equal.
    rewrite (allUpTo_square 1 n g src w h) by (auto; fold s; lia). cbn [Z.eqb Pos.eqb]. fold a. lia.
Qed.

Lemma out16_byte : forall x, Z.min (Z.max (s32 (cvtI x)) 0) 255 mod 256 = satu8of16 (sats16of32 (cvtI x)).
Proof.
  intros x. rewrite Z.mod_small by lia.
  assert (R : 0 <= cvtI x < 2 ^ 32).
  { assert (Z0 : 0 <= 2147483648 < 2 ^ 32) by lia. unfold cvtI. destruct (lrint x) as [v| |]; [destruct (in_intb v)| |]; try exact Z0. unfold wrapu32. apply Z.mod_pos_bound. lia. }
  assert (S : - 2 ^ 31 <= s32 (cvtI x) < 2 ^ 31 /\ wrapu32 (s32 (cvtI x)) = cvtI x).
  { unfold s32, wrapu32. destruct (Z.ltb_spec (cvtI x) 2147483648); [split; [lia | apply Z.mod_small; lia]|]. split; [lia|].
    replace (cvtI x - 4294967296) with (cvtI x + (-1) * 4294967296) by lia. rewrite Z.mod_add by lia. apply Z.mod_small. lia. }
  destruct S as (S1 & S2). rewrite <- S2 at 2. rewrite packByte by exact S1. lia.
Qed.

Definition endVnni : Z := s + 16 * Z.max 0 ((w - s - s) / 16).

Lemma squareVnni_spec :
  exists m, squareVnni n g src w h dst = Ok m /\ b_size m = b_size (p_buf dst) /\
    same (imageOf 1 (mkPl (p_stride dst) m) w h) (mixed 1 n g F src w h endVnni).
Proof.
  assert (S1 : 2 * s + 1 = n /\ 2 <= s <= 5) by (unfold s; destruct N as [->|[->|[->| ->]]]; split; (reflexivity || (vm_compute; split; discriminate))).
  destruct WD as (_ & _ & ST & SZ). rewrite Z.mul_1_r in ST. unfold squareVnni. set (e := endVnni).
  assert (EB : s <= e /\ (s < e -> e <= w - s)).
  { unfold e, endVnni. pose proof (Z.mul_div_le (w - s - s) 16 ltac:(lia)). lia. }
  apply (mixed_ok 1 n g F src w h dst K N LEN LM MV FN W H WS WD BB e); [fold s; lia|]. intros y m Y M. fold s.
  unfold interiorVnni. fold s. fold ss.
  set (stop := if s <? w then w - s else 0). set (maxoff := ((n + 3) / 4 - 1) * 4).
  assert (MO : forall q, 0 <= q < (n + 3) / 4 -> 0 <= q * 4 <= maxoff) by (intros q Q; unfold maxoff; lia).
  assert (STP : s < stop -> stop = w - s) by (unfold stop; destruct (Z.ltb_spec s w); lia).
  set (val := fun x => i_at (mixed 1 n g F src w h e) x y).
  set (base := y * p_stride dst). assert (B0 : 0 <= base) by (unfold base; nia). assert (B1 : base + w * 1 <= b_size m) by (unfold base; rewrite M, SZ; nia).
  assert (PUT : forall load x Q m1, s <= x -> x + 16 <= w - s -> x + 16 <= e ->
    (forall row q, 0 <= row < h -> 0 <= q < (n + 3) / 4 -> exists v, load row (x - s + q * 4) = Ok v /\ window64 row (x - s + q * 4) v) ->
    rowed 1 w base val Q m m1 ->
    exists m', obind (sumsVnni n g src h y x load) (fun a => storeLanes 1 m1 (base + x) (out16 g a)) = Ok m' /\ rowed 1 w base val (fun u => Q u \/ x <= u < x + 16) m m').
  { intros load x Q m1 X X2 XE LD R1. rewrite sumsVnni_spec by assumption. cbn [obind].
    replace (out16 g _) with (map (fun t => val (x + Z.of_nat t)) (seq 0 16)).
    - replace (base + x) with (base + x * 1) by lia. apply (storeBlock_ok 1 w base val ltac:(lia) B0 m B1 Q m1 x 16); [lia | lia | exact R1].
    - unfold out16, acc16. rewrite map_map. apply map_ext_in. intros t T. apply in_seq in T. unfold val, mixed. cbn [i_at]. cbv zeta. fold s. fold a.
      replace ((s <=? x + Z.of_nat t) && (x + Z.of_nat t <? e)) with true by (symmetry; apply andb_true_iff; split; [apply Z.leb_le | apply Z.ltb_lt]; lia).
      unfold vfinish. cbn [Z.eqb Pos.eqb]. rewrite out16_byte. unfold cvtF. rewrite s32_wrap32; [reflexivity|].
      pose proof (allUpTo_bound 1 n g src w h K N LM MV WS BB y (x + Z.of_nat t) n ltac:(lia)) as AB.
      rewrite (allUpTo_square 1 n g src w h) in AB by (auto; fold s; lia). unfold SB in AB. cbn [Z.eqb Pos.eqb] in AB. fold a in AB.
      assert (NN : n * (n * (1023 * 255)) <= 121 * (1023 * 255)) by (destruct N as [Q'|[Q'|[Q'|Q']]]; rewrite Q'; lia). lia. }
  (* the columns of a block before the end of the interior, in steps of sixteen from s *)
  assert (R0 : rowed 1 w base val (fun _ => False) m m) by (split; [reflexivity|]; split; [intros; contradiction | reflexivity]).
  assert (STEP : forall blk load st j P m1, 0 < blk -> (exists c, 0 <= c /\ j = s + 16 * c) -> st <= stop ->
    (forall x row q, s <= x -> x + 16 <= st -> 0 <= row < h -> 0 <= q < (n + 3) / 4 -> exists v, load x row (x - s + q * 4) = Ok v /\ window64 row (x - s + q * 4) v) ->
    (P = fun u => s <= u < j) -> rowed 1 w base val P m m1 ->
    exists m' c, 0 <= c /\ run blk 16 (fun j m => obind (sumsVnni n g src h y j (load j)) (fun a => storeLanes 1 m (base + j) (out16 g a))) st j m1 = Ok (m', s + 16 * c) /\
      s + 16 * c = j + Z.max 0 ((st - j) / (16 * blk)) * (16 * blk) /\ rowed 1 w base val (fun u => s <= u < s + 16 * c) m m').
  { intros blk load st j P m1 BL (c & C0 & ->) LE LD -> R1.
    destruct (run_ok 1 w base val m 16 blk (fun j m => obind (sumsVnni n g src h y j (load j)) (fun a => storeLanes 1 m (base + j) (out16 g a))) st (s + 16 * c) (fun u => s <= u < s + 16 * c) m1 ltac:(lia) BL) as (m2 & E2 & R2).
    - intros c2 Q m3 C2 x XS R3. assert (XW : x + 16 <= w - s) by (rewrite <- STP by (unfold x in *; lia); lia).
      apply PUT; [unfold x; lia | exact XW | | intros row q; apply LD; unfold x in *; lia | exact R3].
      unfold e, endVnni, x in *. assert (c + c2 + 1 <= (w - s - s) / 16) by (apply Z.div_le_lower_bound; lia). lia.
    - exact R1.
    - exists m2, (c + Z.max 0 ((st - (s + 16 * c)) / (16 * blk)) * blk). split; [nia|].
      replace (s + 16 * (c + Z.max 0 ((st - (s + 16 * c)) / (16 * blk)) * blk)) with (s + 16 * c + Z.max 0 ((st - (s + 16 * c)) / (16 * blk)) * (16 * blk)) by ring.
      split; [exact E2|]. split; [reflexivity|]. apply (rowed_weaken 1 w base val m _ _ _) with (2 := R2). intros x X Q. destruct (Z.le_gt_cases (s + 16 * c) x); [right; lia | left; lia]. }
  assert (PL : forall st x row q, s <= x -> x + 16 <= st -> st <= ss - maxoff - 64 + s + 16 -> 0 <= row < h -> 0 <= q < (n + 3) / 4 ->
    exists v, load64 src row (x - s + q * 4) = Ok v /\ window64 row (x - s + q * 4) v).
  { intros st x row q X XS LE R Q. specialize (MO q Q). apply load64_spec; [exact R | lia | lia]. }
  destruct (STEP 4 (fun _ => load64 src) (Z.min stop (ss - maxoff - 112 + s + 64)) s (fun u => s <= u < s) m ltac:(lia)) as (m1 & c1 & C1 & -> & D1 & R1).
  { exists 0. lia. }
  { lia. }
  { intros x row q X XS. apply (PL (Z.min stop (ss - maxoff - 112 + s + 64))); lia. }
  { reflexivity. }
  { apply (rowed_weaken 1 w base val m (fun _ => False)); [intros; lia | exact R0]. }
  cbn [obind fst snd].
  destruct (STEP 1 (fun _ => load64 src) (Z.min stop (ss - maxoff - 64 + s + 16)) (s + 16 * c1) (fun u => s <= u < s + 16 * c1) m1 ltac:(lia)) as (m2 & c2 & C2 & -> & D2 & R2).
  { exists c1. lia. }
  { lia. }
  { intros x row q X XS. apply (PL (Z.min stop (ss - maxoff - 64 + s + 16))); lia. }
  { reflexivity. }
  { exact R1. }
  cbn [obind fst snd].
  destruct (STEP 1 (fun j row x => load64masked src row x (if x <? ss then ss - x else 0)) stop (s + 16 * c2) (fun u => s <= u < s + 16 * c2) m2 ltac:(lia)) as (m3 & c3 & C3 & -> & D3 & R3).
  { exists c2. lia. }
  { lia. }
  { intros x row q X XS R Q. specialize (MO q Q). apply load64masked_spec; [exact R | lia]. }
  { reflexivity. }
  { exact R2. }
  assert (EE : s + 16 * c3 = e).
  { unfold e, endVnni. clear - D1 D2 D3 C1 C2 C3 S1 STP W. rewrite Z.mul_1_r in *. change (16 * 4) with 64 in D1.
    assert (STW : stop <= s \/ stop = w - s) by (destruct (Z.le_gt_cases stop s); [left; assumption | right; auto]).
    assert (SLW : stop <= s -> w - s - s <= 0) by (unfold stop in *; destruct (Z.ltb_spec s w); lia).
    assert (A1 : c1 = 0 \/ s + 16 * c1 <= stop).
    { set (st := Z.min stop _) in D1. assert (st <= stop) by (unfold st; lia). clearbody st. destruct (Z.max_spec 0 ((st - s) / 64)) as [(M & X)|(M & X)]; rewrite X in D1; [|lia].
      pose proof (Z.mul_div_le (st - s) 64 ltac:(lia)). lia. }
    assert (A2 : c2 = 0 \/ s + 16 * c2 <= stop).
    { set (st := Z.min stop _) in D2. assert (st <= stop) by (unfold st; lia). clearbody st. destruct (Z.max_spec 0 ((st - (s + 16 * c1)) / 16)) as [(M & X)|(M & X)]; rewrite X in D2; [|lia].
      pose proof (Z.mul_div_le (st - (s + 16 * c1)) 16 ltac:(lia)). lia. }
    clear D1 D2 A1. clearbody stop.
    replace (stop - (s + 16 * c2)) with (stop - s + (- c2) * 16) in D3 by ring. rewrite Z.div_add in D3 by lia.
    destruct (Z.le_gt_cases stop s) as [L|L].
    - assert (Q1 : (stop - s) / 16 <= 0) by (apply Z.div_le_upper_bound; lia). assert (Q2 : (w - s - s) / 16 <= 0) by (apply Z.div_le_upper_bound; lia). lia.
    - assert (SE : stop = w - s) by (apply STP; lia). clear STP STW SLW. subst stop. assert (Q1 : 0 <= (w - s - s) / 16) by (apply Z.div_pos; lia). assert (c2 <= (w - s - s) / 16) by (apply Z.div_le_lower_bound; lia). lia. }
  exists m3. rewrite EE in *. split; [reflexivity | exact R3].
Qed.
End Vnni.
