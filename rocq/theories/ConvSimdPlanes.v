(** The planes of convolution_impl.h: every sample is the vector code's reading of its sum. *)
From Coq Require Import ZArith List Lia Bool.
From Verif Require Import Common ImageSpec PlaneMem Spatial SpatialLemmas Pixel PixelLemmas PixelSpec Lut LutLemmas Soft GenericSpec Generic GenericLemmas GenericOps GenericPlanes
  Simd MergeSimdLemmas GenericSimd GenericSimdLanes GenericSimdFloat GenericSimdOps GenericSimdPlanes SquareSimd SquareSimdFloat SquareSimdLanes SquareSimdPlanes ConvSimd ConvSimdLanes ConvSimdScan.
Import Soft ListNotations.
Open Scope Z_scope.

(** ** Elements of a line *)

Lemma pel_line : forall k d x, pel k (line d) 0 x = leval (Z.to_nat k) (b_data d) (x * k).
Proof. reflexivity. Qed.

Lemma put_el : forall k d x v, 1 <= k -> 0 <= v < 256 ^ k -> 0 <= x -> (x + 1) * k <= b_size d ->
  exists d', storeS k d (x * k) v = Ok d' /\ b_size d' = b_size d /\ pel k (line d') 0 x = v /\ (forall u, u <> x -> pel k (line d') 0 u = pel k (line d) 0 u) /\ (bytes d -> bytes d').
Proof.
  intros k d x v K V X E. destruct (storeS_spec k d (x * k) v K ltac:(apply Z.mul_nonneg_nonneg; lia) ltac:(lia)) as (d' & F & S & A & O).
  exists d'. split; [exact F|]. split; [exact S|]. split; [rewrite pel_line; apply leval_stored; assumption|]. split.
  - intros u U. rewrite !pel_line. apply leval_ext. intros j J. rewrite Z2Nat.id in J by lia. apply O.
    assert (C : u < x \/ x < u) by lia. destruct C as [C|C].
    + left. assert ((u + 1) * k <= x * k) by (apply Z.mul_le_mono_nonneg_r; lia). lia.
    + right. assert ((x + 1) * k <= u * k) by (apply Z.mul_le_mono_nonneg_r; lia). lia.
  - intros BB a. assert (C : (a < x * k \/ x * k + k <= a) \/ x * k <= a < x * k + k) by lia. destruct C as [C|C]; [rewrite O by exact C; apply BB|].
    replace a with (x * k + (a - x * k)) by lia. rewrite A by lia. apply byte_range.
Qed.

Lemma get_el : forall k d x, 1 <= k -> 0 <= x -> (x + 1) * k <= b_size d -> loadS k d (x * k) = Ok (pel k (line d) 0 x).
Proof. intros k d x K X E. rewrite pel_line. apply loadS_ok; [apply Z.mul_nonneg_nonneg; lia | lia]. Qed.

Lemma copyN_ok : forall k s so n d o, 1 <= k -> bytes s -> 0 <= n -> 0 <= so -> so + n * k <= b_size s -> 0 <= o -> (o + n) * k <= b_size d ->
  exists d', copyN k s so n d (o * k) = Ok d' /\ b_size d' = b_size d /\ (forall i, 0 <= i < n -> pel k (line d') 0 (o + i) = leval (Z.to_nat k) (b_data s) (so + i * k)) /\
    (forall u, u < o \/ o + n <= u -> pel k (line d') 0 u = pel k (line d) 0 u) /\ (bytes d -> bytes d').
Proof.
  intros k s so n d o K BS N SO SE O E. unfold copyN.
  destruct (forZ_inv (fun j d' => b_size d' = b_size d /\ (forall i, 0 <= i < j -> pel k (line d') 0 (o + i) = leval (Z.to_nat k) (b_data s) (so + i * k)) /\
    (forall u, u < o \/ o + j <= u -> pel k (line d') 0 u = pel k (line d) 0 u) /\ (bytes d -> bytes d'))
    (fun i d => obind (loadS k s (so + i * k)) (fun v => storeS k d (o * k + i * k) v)) n d N) as (d' & F & Q).
  - split; [reflexivity|]. split; [intros; lia|]. split; [reflexivity | auto].
  - intros j d1 J (S1 & A1 & U1 & B1). assert (JK : 0 <= j * k) by (apply Z.mul_nonneg_nonneg; lia). assert (JN : (j + 1) * k <= n * k) by (apply Z.mul_le_mono_nonneg_r; lia).
    rewrite loadS_ok by lia. cbn [obind]. rewrite <- Z.mul_add_distr_r.
    assert (LR : 0 <= leval (Z.to_nat k) (b_data s) (so + j * k) < 256 ^ k).
    { pose proof (leval_range (Z.to_nat k) (b_data s) (so + j * k) BS) as L. rewrite Z2Nat.id in L by lia. exact L. }
    destruct (put_el k d1 (o + j) _ K LR ltac:(lia)) as (d2 & E2 & S2 & A2 & U2 & B2); [rewrite S1; lia|].
    exists d2. split; [exact E2|]. split; [congruence|]. split.
    + intros i I. assert (C : i = j \/ i < j) by lia. destruct C as [->|C]; [exact A2|]. rewrite U2 by lia. apply A1. lia.
    + split; [|auto]. intros u U. rewrite U2 by lia. apply U1. lia.
  - exists d'. tauto.
Qed.

Lemma flipLeft_ok : forall k o n d, 1 <= k -> bytes d -> 0 <= n <= o -> (o + n) * k <= b_size d ->
  exists d', flipLeft k o n d = Ok d' /\ b_size d' = b_size d /\ (forall i, 0 <= i < n -> pel k (line d') 0 (o - 1 - i) = pel k (line d) 0 (o + i)) /\
    (forall u, u < o - n \/ o <= u -> pel k (line d') 0 u = pel k (line d) 0 u) /\ bytes d'.
Proof.
  intros k o n d K BD N E. unfold flipLeft.
  destruct (forZ_inv (fun j d' => b_size d' = b_size d /\ (forall i, 0 <= i < j -> pel k (line d') 0 (o - 1 - i) = pel k (line d) 0 (o + i)) /\
    (forall u, u < o - j \/ o <= u -> pel k (line d') 0 u = pel k (line d) 0 u) /\ bytes d')
    (fun i d => obind (loadS k d ((o + i) * k)) (fun v => storeS k d ((o - 1 - i) * k) v)) n d ltac:(lia)) as (d' & F & Q).
  - split; [reflexivity|]. split; [intros; lia|]. split; [reflexivity | auto].
  - intros j d1 J (S1 & A1 & U1 & B1). assert (JN : (o + j + 1) * k <= (o + n) * k) by (apply Z.mul_le_mono_nonneg_r; lia). assert (JM : (o - 1 - j + 1) * k <= (o + n) * k) by (apply Z.mul_le_mono_nonneg_r; lia).
    rewrite get_el by lia. cbn [obind].
    destruct (put_el k d1 (o - 1 - j) (pel k (line d1) 0 (o + j)) K ltac:(apply pel_range; [lia | exact B1]) ltac:(lia)) as (d2 & E2 & S2 & A2 & U2 & B2); [lia|].
    exists d2. split; [exact E2|]. split; [congruence|]. split.
    + intros i I. assert (C : i = j \/ i < j) by lia. destruct C as [->|C]; [rewrite A2; apply U1; lia|]. rewrite U2 by lia. apply A1. lia.
    + split; [|auto]. intros u U. rewrite U2 by lia. apply U1. lia.
  - exists d'. tauto.
Qed.

Lemma flipRight_ok : forall k o n d, 1 <= k -> bytes d -> 0 <= n <= o -> (o + n) * k <= b_size d ->
  exists d', flipRight k o n d = Ok d' /\ b_size d' = b_size d /\ (forall i, 0 <= i < n -> pel k (line d') 0 (o + i) = pel k (line d) 0 (o - 1 - i)) /\
    (forall u, u < o \/ o + n <= u -> pel k (line d') 0 u = pel k (line d) 0 u) /\ bytes d'.
Proof.
  intros k o n d K BD N E. unfold flipRight.
  destruct (forZ_inv (fun j d' => b_size d' = b_size d /\ (forall i, 0 <= i < j -> pel k (line d') 0 (o + i) = pel k (line d) 0 (o - 1 - i)) /\
    (forall u, u < o \/ o + j <= u -> pel k (line d') 0 u = pel k (line d) 0 u) /\ bytes d')
    (fun i d => obind (loadS k d ((o - 1 - i) * k)) (fun v => storeS k d ((o + i) * k) v)) n d ltac:(lia)) as (d' & F & Q).
  - split; [reflexivity|]. split; [intros; lia|]. split; [reflexivity | auto].
  - intros j d1 J (S1 & A1 & U1 & B1). assert (JN : (o + j + 1) * k <= (o + n) * k) by (apply Z.mul_le_mono_nonneg_r; lia). assert (JM : (o - 1 - j + 1) * k <= (o + n) * k) by (apply Z.mul_le_mono_nonneg_r; lia).
    rewrite get_el by lia. cbn [obind].
    destruct (put_el k d1 (o + j) (pel k (line d1) 0 (o - 1 - j)) K ltac:(apply pel_range; [lia | exact B1]) ltac:(lia)) as (d2 & E2 & S2 & A2 & U2 & B2); [lia|].
    exists d2. split; [exact E2|]. split; [congruence|]. split.
    + intros i I. assert (C : i = j \/ i < j) by lia. destruct C as [->|C]; [rewrite A2; apply U1; lia|]. rewrite U2 by lia. apply A1. lia.
    + split; [|auto]. intros u U. rewrite U2 by lia. apply U1. lia.
  - exists d'. tauto.
Qed.

(** Samples copied into a row. *)
Lemma copyRow_ok : forall k s so n w base val m0 P m, 1 <= k -> 0 <= n <= w -> 0 <= so -> so + n * k <= b_size s -> 0 <= base -> base + w * k <= b_size m0 ->
  rowed k w base val P m0 m -> (forall i, 0 <= i < n -> leval (Z.to_nat k) (b_data s) (so + i * k) = val i) ->
  exists m', copyN k s so n m base = Ok m' /\ rowed k w base val (fun u => P u \/ u < n) m0 m'.
Proof.
  intros k s so n w base val m0 P m K N SO SE B0 BE R V. unfold copyN.
  destruct (forZ_inv (fun j m' => rowed k w base val (fun u => P u \/ 0 <= u < j) m0 m') (fun i d => obind (loadS k s (so + i * k)) (fun v => storeS k d (base + i * k) v)) n m ltac:(lia)) as (m' & F & Q).
  - eapply rowed_weaken; [|exact R]. intros x X [q|q]; [exact q | lia].
  - intros j m1 J R1. assert (JK : 0 <= j * k) by (apply Z.mul_nonneg_nonneg; lia). assert (JN : (j + 1) * k <= n * k) by (apply Z.mul_le_mono_nonneg_r; lia).
    rewrite loadS_ok by lia. cbn [obind]. rewrite V by lia.
    destruct (rowed_store k w base val K _ m0 m1 j B0 BE ltac:(lia) R1) as (m2 & E2 & R2). exists m2. split; [exact E2|]. eapply rowed_weaken; [|exact R2]. intros x X [q|q]; [tauto|].
    destruct (Z.eq_dec x j); [tauto|]. left. right. lia.
  - exists m'. split; [exact F|]. eapply rowed_weaken; [|exact Q]. intros x X [q|q]; [tauto | right; lia].
Qed.

(** Planes painted row by row by code that keeps more than the plane. *)
Lemma planeT_ok : forall {S : Type} k w wR h gf (row : Z -> S -> outcome S) (pr : S -> pbuf) (I : S -> Prop) dst s0, 1 <= k -> wfPlane k dst w h -> w <= wR -> wR * k <= p_stride dst -> pr s0 = p_buf dst -> I s0 ->
  (forall y s, 0 <= y < h -> I s -> b_size (pr s) = b_size (p_buf dst) ->
     exists s', row y s = Ok s' /\ I s' /\ rowed k wR (y * p_stride dst) (fun x => gf x y) (fun u => u < w) (pr s) (pr s')) ->
  (forall x y, 0 <= x < w -> 0 <= y < h -> 0 <= gf x y < 256 ^ k) ->
  exists s', forZ h row s0 = Ok s' /\ b_size (pr s') = b_size (p_buf dst) /\ same (imageOf k (mkPl (p_stride dst) (pr s')) w h) (mkI w h gf).
Proof.
  intros S k w wR h gf row pr I dst s0 K (W & H & ST & B) WR WS P0 I0 V R. set (str := p_stride dst) in *.
  destruct (forZ_inv (fun y s => b_size (pr s) = b_size (p_buf dst) /\ I s /\ painted k w h gf str y 0 (pr s)) row h s0 H) as (s' & E & M1 & MI & M2).
  - split; [rewrite P0; reflexivity|]. split; [exact I0|]. intros u v U V' C. lia.
  - intros y s Y (M1 & MI & M2). destruct (V y s Y MI M1) as (s' & E & I' & Q1 & Q2 & Q3).
    exists s'. split; [exact E|]. split; [congruence|]. split; [exact I'|].
    intros u v U V' D j J. assert (v < y \/ v = y) as [L| ->] by lia.
    + rewrite Q3; [apply M2; auto; lia|]. left. assert (u * k + k <= w * k) by nia. assert ((v + 1) * str <= y * str) by nia. lia.
    + apply Q2; auto; lia.
  - exists s'. split; [exact E|]. split; [exact M1|]. apply (painted_image k w h gf K str 0 (pr s') H R M2).
Qed.

Section Planes.
Variables (B : backend) (k : Z) (g : gparams) (sc : scratch) (src : plane) (w h : Z) (dst : plane).
Hypothesis KB : known B.
Hypothesis K : smallk k.
Hypothesis LM : legalMatrix (g_matrix g).
Hypothesis N3 : 3 <= g_size g <= 25.
Hypothesis NO : Z.odd (g_size g) = true.
Hypothesis MV : 0 <= g_maxval g < 256 ^ k.
Hypothesis W : 1 <= w < 2 ^ 31.
Hypothesis H : 1 <= h < 2 ^ 31.
Hypothesis WS : wfPlane k src w h.
Hypothesis WD : wfPlane k dst w h.
Hypothesis AS : aligned B src.
Hypothesis AD : aligned B dst.
Hypothesis BB : byteBuf src.
Let N := g_size g.
Let s := g_size g / 2.
Let a := imageOf k src w h.
Let wR := blocksOf B w * pels B.
Let fin := vfin B k g.

Lemma k1 : 1 <= k.
Proof. destruct K; lia. Qed.
Lemma pels_cases : pels B = 8 /\ hblk B = 16 /\ padElems B = 64 \/ pels B = 16 /\ hblk B = 16 /\ padElems B = 64 \/ pels B = 32 /\ hblk B = 32 /\ padElems B = 96.
Proof. destruct KB as [->|[->| ->]]; cbn; tauto. Qed.
Lemma s_is : N = 2 * s + 1 /\ 1 <= s <= 12.
Proof. pose proof (odd_half N NO). unfold s. fold N in N3 |- *. lia. Qed.
Lemma reach_le : s + 1 <= reach g - s <= 13 /\ reach g <= N + 1.
Proof.
  pose proof s_is as (NE & SR). unfold reach. fold N. destruct (Z.eqb_spec N 13); cbn [orb]; [lia|]. destruct (Z.eqb_spec N 25); cbn [orb]; lia.
Qed.
Lemma blocks_cover : forall n, 0 <= n -> n <= blocksOf B n * pels B < n + pels B.
Proof.
  intros n Hn. unfold blocksOf. pose proof pels_cases. pose proof (Z.div_mod (n + pels B - 1) (pels B) ltac:(lia)). pose proof (Z.mod_pos_bound (n + pels B - 1) (pels B) ltac:(lia)). lia.
Qed.
Lemma blocks_mul : forall q, blocksOf B (q * pels B) * pels B = q * pels B.
Proof. intros q. unfold blocksOf. pose proof pels_cases. replace (q * pels B + pels B - 1) with (pels B - 1 + q * pels B) by ring. rewrite Z.div_add, Z.div_small by lia. reflexivity. Qed.
Lemma blocks_shift : forall q n, blocksOf B (q * pels B + n) * pels B = q * pels B + blocksOf B n * pels B.
Proof. intros q n. unfold blocksOf. pose proof pels_cases. replace (q * pels B + n + pels B - 1) with (n + pels B - 1 + q * pels B) by ring. rewrite Z.div_add by lia. ring. Qed.

Lemma stride_fits : forall p, wfPlane k p w h -> aligned B p -> p_stride p mod (pels B * k) = 0 /\ wR * k <= p_stride p /\ 0 <= p_stride p.
Proof.
  intros p (P0 & P1 & P2 & P3) A. unfold aligned in A. pose proof k1 as K1. pose proof (blocks_cover w ltac:(lia)) as BC. fold wR in BC.
  set (c := 16 * Z.of_nat (be_nb B)) in *. assert (PE : 2 * pels B = c) by (unfold pels, c; lia). pose proof pels_cases as PC.
  pose proof (Z.div_mod (p_stride p) c ltac:(lia)) as D. rewrite A in D. set (q := p_stride p / c) in *.
  assert (WK : 0 <= w * k) by (apply Z.mul_nonneg_nonneg; lia).
  assert (PM : p_stride p = (if k =? 1 then 2 * q else q) * (pels B * k)) by (destruct K as [Q|Q]; rewrite Q; cbn [Z.eqb Pos.eqb]; nia).
  split; [rewrite PM; apply Z.mod_mul; nia|]. split; [|lia].
  set (r := if k =? 1 then 2 * q else q) in *. clearbody r.
  assert (w <= r * pels B) by (apply Z.mul_le_mono_pos_r with (p := k); nia).
  assert (blocksOf B w <= r) by (unfold blocksOf; apply Z.lt_succ_r, Z.div_lt_upper_bound; nia).
  unfold wR. nia.
Qed.

Lemma row_aligned : forall y, (y * p_stride dst) mod (pels B * k) = 0.
Proof. intros y. destruct (stride_fits dst WD AD) as (D1 & _). pose proof pels_cases. pose proof k1. rewrite Z.mul_mod, D1 by nia. rewrite Z.mul_0_r. apply Z.mod_0_l. nia. Qed.
Lemma base_aligned : forall y q, (y * p_stride dst + q * pels B * k) mod (pels B * k) = 0.
Proof. intros y q. pose proof pels_cases. pose proof k1. rewrite <- Z.mul_assoc, Z.mod_add by nia. apply row_aligned. Qed.

Lemma px_pel : forall x y, i_at a x y = pel k src y x.
Proof. reflexivity. Qed.

(** The row [y] of the result. *)
Definition rowsH (x y : Z) : Z := fin (horizontal (g_matrix g) a x y).
Definition rowsV (x y : Z) : Z := fin (vertical (g_matrix g) a x y).

Lemma gather_is : s < h -> forall y c, 0 <= y < h -> 0 <= c < N -> gatherRow g h y c = mirrored h (y + c - s).
Proof. intros SH y c Y C. pose proof s_is as (NE & SR). unfold gatherRow. fold s. apply tapIndex_spec; unfold N in *; lia. Qed.

(** ** Vertical *)

Lemma convVV_ok : s < h ->
  exists m, convVV B k g sc src w h dst = Ok m /\ b_size m = b_size (p_buf dst) /\ same (imageOf k (mkPl (p_stride dst) m) w h) (weighed fin (vertical (g_matrix g)) a).
Proof.
  intros SH. pose proof k1 as K1. pose proof s_is as (NE & SR). destruct (stride_fits src WS AS) as (S1 & S2 & S3). destruct (stride_fits dst WD AD) as (D1 & D2 & D3).
  pose proof (blocks_cover w ltac:(lia)) as BC. destruct WD as (_ & _ & DW & DZ). destruct WS as (_ & _ & SW & SZ). fold wR in BC.
  destruct (planeT_ok k w wR h rowsV (fun y st => scanV B k g src (gatherRow g h y) (y * p_stride dst) w st) fst (fun st => 9 < N -> b_size (snd st) = (w + pels B) * 4) dst
    (p_buf dst, tmpOf B (9 <? g_size g) w (sc_tmp sc))) as ((m & t) & E & M & SM); auto; try lia.
  - intros L. unfold tmpOf. cbn [snd b_size]. fold N. replace (9 <? N) with true by lia. reflexivity.
  - intros y (m & t) Y T M. cbn [fst snd] in *. assert (Y0 : 0 <= y * p_stride dst) by (apply Z.mul_nonneg_nonneg; lia). assert (YH : (y + 1) * p_stride dst <= h * p_stride dst) by (apply Z.mul_le_mono_nonneg_r; lia).
    destruct (scanV_ok B k g KB K LM N3 NO MV src (gatherRow g h y) h wR (y * p_stride dst) (fun x => rowsV x y) m (fun _ => False) m t (y * p_stride dst) 0 w) as (m' & t' & E & ST & R & _); auto; try lia.
    + apply (row_aligned y).
    + split; [reflexivity|]. split; [intros; contradiction | reflexivity].
    + intros c C. rewrite gather_is by (try exact SH; unfold N; lia). apply mirrored_in. lia.
    + intros x X. rewrite Z.add_0_l. unfold rowsV, vertical, full, fin. do 2 f_equal. fold (g_size g). apply map_ext_in. intros c C. apply In_zseq in C.
      rewrite gather_is by (try exact SH; unfold N; lia). reflexivity.
    + exists (m', t'). split; [exact E|]. cbn [fst snd]. split; [intros L; rewrite ST; auto|]. eapply rowed_weaken; [|exact R]. intros x X U. right. lia.
  - intros x y X Y. apply vfin_range; assumption.
  - exists m. unfold convVV. rewrite E. cbn [obind fst]. split; [reflexivity|]. split; [exact M | exact SM].
Qed.

(** ** Lines *)

Definition goodSc : Prop := (forall z, 0 <= sc_pad sc z < 256) /\ (forall z, 0 <= sc_row sc z < 256).

(** Columns [x0 - s] to [x1 + s - 1] of a row of [f] stand at [o]. *)
Definition holds (d : pbuf) (o : Z) (f : Z -> Z) (x0 x1 : Z) : Prop := forall x, x0 - s <= x < x1 + s -> pel k (line d) 0 (o + x - x0) = f (mirrored w x).

Lemma line_full : forall d o y x0 x1, holds d o (fun x => i_at a x y) x0 x1 ->
  forall x, 0 <= x < x1 - x0 -> full g (fun c => pel k (line d) 0 (o + x - s + c)) = horizontal (g_matrix g) a (x0 + x) y.
Proof.
  intros d o y x0 x1 HD x X. pose proof s_is as (NE & SR). unfold full, horizontal. fold (g_size g) s. f_equal. apply map_ext_in. intros c C. apply In_zseq in C. fold N in C.
  f_equal. replace (o + x - s + c) with (o + (x0 + x - s + c) - x0) by lia. rewrite HD by lia. cbn [i_w a imageOf]. f_equal. f_equal. lia.
Qed.

Lemma vecEnd_facts : exists q, vecEnd B w = q * hblk B /\ 1 <= q /\ (hblk B < w -> vecEnd B w < w <= vecEnd B w + hblk B + 12) /\ (hblk B < vecEnd B w -> vecEnd B w + 13 <= w).
Proof.
  unfold vecEnd. pose proof pels_cases as PC. set (b := hblk B) in *. pose proof (Z.div_mod (Z.max w 13 - 13) b ltac:(lia)) as DM. pose proof (Z.mod_pos_bound (Z.max w 13 - 13) b ltac:(lia)) as MB.
  set (d := (Z.max w 13 - 13) / b) in *. assert (D0 : 0 <= d) by (apply Z.div_pos; lia).
  exists (Z.max d 1). assert (C : d = 0 \/ 1 <= d) by lia. destruct C as [C|C].
  - rewrite C in *. rewrite Z.max_r by lia. lia.
  - assert (b <= d * b) by nia. rewrite Z.max_l by lia. replace (Z.max d 1) with d by lia. split; [reflexivity|]. lia.
Qed.

Lemma src_row : forall y x, 0 <= y < h -> 0 <= x < w -> 0 <= y * p_stride src + x * k /\ y * p_stride src + (x + 1) * k <= b_size (p_buf src).
Proof.
  intros y x Y X. destruct WS as (_ & _ & SW & SZ). pose proof k1. rewrite SZ. assert (0 <= x * k) by (apply Z.mul_nonneg_nonneg; lia). assert ((x + 1) * k <= w * k) by (apply Z.mul_le_mono_nonneg_r; lia).
  assert (0 <= y * p_stride src) by (apply Z.mul_nonneg_nonneg; lia). assert ((y + 1) * p_stride src <= h * p_stride src) by (apply Z.mul_le_mono_nonneg_r; lia). lia.
Qed.

Hypothesis SX : s < w.

Lemma mirror_lo : forall x, - s <= x < 0 -> mirrored w x = -1 - x.
Proof. intros x X. unfold mirrored, edge. destruct (Z.ltb_spec x 0); lia. Qed.
Lemma mirror_hi : forall x, w <= x < w + s -> mirrored w x = 2 * w - 1 - x.
Proof. intros x X. unfold mirrored, edge. destruct (Z.ltb_spec x 0); [lia|]. destruct (Z.leb_spec w x); lia. Qed.

Lemma left_ok : forall y pad, 0 <= y < h -> bytes pad -> b_size pad = padElems B * k ->
  exists p1 p2 p3, copyN k (p_buf src) (y * p_stride src) (Z.min w (hblk B + 12)) pad (16 * k) = Ok p1 /\ flipLeft k 16 12 p1 = Ok p2 /\
    (if w <? hblk B + 12 then flipRight k (16 + w) (Z.min (hblk B + 12 - w) 12) p2 else Ok p2) = Ok p3 /\
    b_size p3 = padElems B * k /\ bytes p3 /\ holds p3 16 (fun x => i_at a x y) 0 (Z.min w (hblk B)).
Proof.
  intros y pad Y BP SP. pose proof k1 as K1. pose proof s_is as (NE & SR). pose proof pels_cases as PC.
  assert (FITS : forall e, 0 <= e <= padElems B -> e * k <= padElems B * k) by (intros; apply Z.mul_le_mono_nonneg_r; lia).
  pose proof (src_row y (Z.min w (hblk B + 12) - 1) Y ltac:(lia)) as SR1. pose proof (src_row y 0 Y ltac:(lia)) as SR0.
  destruct (copyN_ok k (p_buf src) (y * p_stride src) (Z.min w (hblk B + 12)) pad 16 K1 BB ltac:(lia) ltac:(lia) ltac:(lia) ltac:(lia)) as (p1 & E1 & S1 & A1 & U1 & B1); [rewrite SP; apply FITS; lia|].
  destruct (flipLeft_ok k 16 12 p1 K1 (B1 BP) ltac:(lia)) as (p2 & E2 & S2 & A2 & U2 & B2); [rewrite S1, SP; apply FITS; lia|].
  assert (G : exists p3, (if w <? hblk B + 12 then flipRight k (16 + w) (Z.min (hblk B + 12 - w) 12) p2 else Ok p2) = Ok p3 /\ b_size p3 = b_size p2 /\ bytes p3 /\
    (forall u, u < 16 + w -> pel k (line p3) 0 u = pel k (line p2) 0 u) /\ (forall i, 0 <= i < Z.min (hblk B + 12 - w) 12 -> pel k (line p3) 0 (16 + w + i) = pel k (line p2) 0 (16 + w - 1 - i))).
  { destruct (Z.ltb_spec w (hblk B + 12)).
    - destruct (flipRight_ok k (16 + w) (Z.min (hblk B + 12 - w) 12) p2 K1 B2 ltac:(lia)) as (p3 & E3 & S3 & A3 & U3 & B3); [rewrite S2, S1, SP; apply FITS; lia|].
      exists p3. split; [exact E3|]. split; [exact S3|]. split; [exact B3|]. split; [intros u U; apply U3; lia | exact A3].
    - exists p2. split; [reflexivity|]. split; [reflexivity|]. split; [exact B2|]. split; [reflexivity | intros; lia]. }
  destruct G as (p3 & E3 & S3 & B3 & U3 & A3). exists p1, p2, p3. split; [exact E1|]. split; [exact E2|]. split; [exact E3|]. split; [congruence|]. split; [exact B3|].
  intros x X. rewrite Z.sub_0_r.
  assert (P1 : forall i, 0 <= i < Z.min w (hblk B + 12) -> pel k (line p2) 0 (16 + i) = i_at a i y) by (intros i I; rewrite U2 by lia; rewrite A1 by lia; reflexivity).
  assert (C : x < 0 \/ 0 <= x < w \/ w <= x) by lia. destruct C as [C|[C|C]].
  - rewrite U3 by lia. rewrite mirror_lo by lia. replace (16 + x) with (16 - 1 - (-1 - x)) by lia. rewrite A2 by lia. rewrite A1 by lia. reflexivity.
  - rewrite U3 by lia. rewrite mirrored_id by lia. apply P1. lia.
  - rewrite mirror_hi by lia. replace (16 + x) with (16 + w + (x - w)) by lia. rewrite A3 by lia. replace (16 + w - 1 - (x - w)) with (16 + (2 * w - 1 - x)) by lia. apply P1. lia.
Qed.

Lemma right_ok : forall y pad, 0 <= y < h -> hblk B < w -> bytes pad -> b_size pad = padElems B * k -> let v := vecEnd B w in
  exists p1 p2, copyN k (p_buf src) (y * p_stride src + (v - 12) * k) (w - v + 12) pad (4 * k) = Ok p1 /\ flipRight k (16 + (w - v)) 12 p1 = Ok p2 /\
    b_size p2 = padElems B * k /\ bytes p2 /\ holds p2 16 (fun x => i_at a x y) v w.
Proof.
  intros y pad Y HW BP SP v. pose proof k1 as K1. pose proof s_is as (NE & SR). pose proof pels_cases as PC. destruct vecEnd_facts as (q & VQ & Q1 & VW & _). fold v in VQ, VW. specialize (VW HW).
  assert (VH : hblk B <= v) by nia.
  assert (FITS : forall e, 0 <= e <= padElems B -> e * k <= padElems B * k) by (intros; apply Z.mul_le_mono_nonneg_r; lia).
  pose proof (src_row y (w - 1) Y ltac:(lia)) as SR1. pose proof (src_row y (v - 12) Y ltac:(lia)) as SR0.
  destruct (copyN_ok k (p_buf src) (y * p_stride src + (v - 12) * k) (w - v + 12) pad 4 K1 BB ltac:(lia) ltac:(lia) ltac:(lia) ltac:(lia)) as (p1 & E1 & S1 & A1 & U1 & B1); [rewrite SP; apply FITS; lia|].
  destruct (flipRight_ok k (16 + (w - v)) 12 p1 K1 (B1 BP) ltac:(lia)) as (p2 & E2 & S2 & A2 & U2 & B2); [rewrite S1, SP; apply FITS; lia|].
  exists p1, p2. split; [exact E1|]. split; [exact E2|]. split; [congruence|]. split; [exact B2|].
  assert (P1 : forall x, v - 12 <= x < w -> pel k (line p1) 0 (16 + x - v) = i_at a x y).
  { intros x X. replace (16 + x - v) with (4 + (x - v + 12)) by lia. rewrite A1 by lia. unfold a. cbn [imageOf i_at]. f_equal. ring. }
  intros x X. assert (C : x < w \/ w <= x) by lia. destruct C as [C|C].
  - rewrite U2 by lia. rewrite mirrored_id by lia. apply P1. lia.
  - rewrite mirror_hi by lia. replace (16 + x - v) with (16 + (w - v) + (x - w)) by lia. rewrite A2 by lia. replace (16 + (w - v) - 1 - (x - w)) with (16 + (2 * w - 1 - x) - v) by lia. apply P1. lia.
Qed.

(** ** Horizontal *)

Definition stOk (many : bool) (st : state * pbuf) : Prop := (many = true -> b_size (snd (fst st)) = (w + pels B) * 4) /\ bytes (snd st).

Lemma rowed_start : forall base val (m : pbuf), rowed k wR base val (fun u => u < 0) m m.
Proof. intros. split; [reflexivity|]. split; [intros; lia | reflexivity]. Qed.

Lemma rowH_ok : forall y m t pad, 0 <= y < h -> (13 < N -> b_size t = (w + pels B) * 4) -> bytes pad -> b_size pad = padElems B * k -> b_size m = b_size (p_buf dst) ->
  exists m' t' pad', rowH B k g sc src w (p_stride dst) y ((m, t), pad) = Ok ((m', t'), pad') /\ b_size t' = b_size t /\ bytes pad' /\ b_size pad' = padElems B * k /\
    rowed k wR (y * p_stride dst) (fun x => rowsH x y) (fun u => u < w) m m'.
Proof.
  intros y m t pad Y TS BP SP SM. pose proof k1 as K1. pose proof s_is as (NE & SR). pose proof pels_cases as PC. pose proof reach_le as RL.
  destruct vecEnd_facts as (q & VQ & Q1 & VW & VL). set (v := vecEnd B w) in *. assert (VH : hblk B <= v) by nia.
  assert (HP : exists hq, hblk B = hq * pels B /\ 1 <= hq) by (destruct PC as [(p1 & p2 & _)|[(p1 & p2 & _)|(p1 & p2 & _)]]; [exists 2 | exists 1 | exists 1]; lia). destruct HP as (hq & HQ & HQ1).
  assert (VP : v = q * hq * pels B) by (rewrite VQ, HQ; ring).
  destruct (stride_fits dst WD AD) as (D1 & D2 & D3). destruct (stride_fits src WS AS) as (S1 & S2 & S3). destruct WD as (_ & _ & DW & DZ). destruct WS as (_ & _ & SW & SZ).
  pose proof (blocks_cover w ltac:(lia)) as BC. fold wR in BC.
  assert (Y0 : 0 <= y * p_stride dst) by (apply Z.mul_nonneg_nonneg; lia). assert (YH : (y + 1) * p_stride dst <= h * p_stride dst) by (apply Z.mul_le_mono_nonneg_r; lia).
  assert (FITS : forall e, 0 <= e <= padElems B -> 0 * 0 + e * k <= padElems B * k) by (intros; rewrite Z.mul_0_l, Z.add_0_l; apply Z.mul_le_mono_nonneg_r; lia).
  assert (TF : forall n, 0 <= n -> blocksOf B n * pels B <= w + pels B -> 13 < N -> blocksOf B n * pels B * 4 <= b_size t) by (intros n _ BN NL; rewrite TS by exact NL; lia).
  assert (BH : blocksOf B (hblk B) * pels B = hblk B) by (rewrite HQ; apply blocks_mul).
  assert (HWF : 13 < N -> hblk B <= w + pels B) by (intros NL; destruct PC as [(p1 & p2 & _)|[(p1 & p2 & _)|(p1 & p2 & _)]]; lia).
  unfold rowH. cbv zeta. fold v.
  destruct (left_ok y pad Y BP SP) as (p1 & p2 & p3 & -> & E2 & E3 & SP3 & BP3 & HD). cbn [obind]. rewrite E2. cbn [obind]. rewrite E3. cbn [obind].
  assert (RHI : 0 <= 16 - s) by lia.
  (* the first block *)
  assert (G1 : exists m1 t1, (if hblk B <=? w then scanH B k g (line p3) 0 16 (y * p_stride dst) (hblk B) (m, t)
         else obind (scanH B k g (line p3) 0 16 0 (hblk B) (mkB (padElems B * k) (sc_out sc), t)) (fun ot =>
              obind (copyN k (fst ot) 0 w m (y * p_stride dst)) (fun m => Ok (m, snd ot)))) = Ok (m1, t1) /\ b_size t1 = b_size t /\
         rowed k wR (y * p_stride dst) (fun x => rowsH x y) (fun u => u < Z.min w (hblk B)) m m1).
  { destruct (Z.leb_spec (hblk B) w) as [L|L].
    - destruct (scanH_ok B k g KB K LM N3 NO MV (line p3) 0 16 wR (y * p_stride dst) (fun x => rowsH x y) m (fun u => u < 0) m t (y * p_stride dst) 0 (hblk B)) as (m1 & t1 & E & T1 & R & _).
      + apply TF; lia.
      + exact Y0.
      + rewrite SM, DZ. lia.
      + lia.
      + apply row_aligned.
      + lia.
      + lia.
      + rewrite BH. lia.
      + apply rowed_start.
      + intros; lia.
      + exact BP3.
      + cbn [line p_stride]. rewrite Z.mul_0_l. apply Z.mul_nonneg_nonneg; fold s; lia.
      + cbn [line p_stride p_buf]. rewrite SP3, BH. apply FITS. fold s. lia.
      + intros x X. unfold rowsH, fin. f_equal. symmetry. apply (line_full p3 16 y 0 (Z.min w (hblk B))); [exact HD | lia].
      + exists m1, t1. split; [exact E|]. split; [exact T1|]. eapply rowed_weaken; [|exact R]. intros x X U. right. lia.
    - destruct (scanH_ok B k g KB K LM N3 NO MV (line p3) 0 16 (hblk B) 0 (fun x => fin (full g (fun c => pel k (line p3) 0 (16 + x - s + c)))) (mkB (padElems B * k) (sc_out sc)) (fun u => False) (mkB (padElems B * k) (sc_out sc)) t 0 0 (hblk B)) as (o1 & t1 & E & T1 & R & _).
      + intros NL. specialize (HWF NL). apply TF; [lia | lia | exact NL].
      + lia.
      + cbn [b_size]. apply FITS. lia.
      + lia.
      + apply Z.mod_0_l. nia.
      + lia.
      + lia.
      + rewrite BH. lia.
      + split; [reflexivity|]. split; [intros; contradiction | reflexivity].
      + tauto.
      + exact BP3.
      + cbn [line p_stride]. rewrite Z.mul_0_l. apply Z.mul_nonneg_nonneg; fold s; lia.
      + cbn [line p_stride p_buf]. rewrite SP3, BH. apply FITS. fold s. lia.
      + intros x X. rewrite Z.add_0_l. reflexivity.
      + rewrite E. cbn [obind fst snd]. destruct R as (R1 & R2 & R3).
        destruct (copyRow_ok k o1 0 w wR (y * p_stride dst) (fun x => rowsH x y) m (fun u => u < 0) m K1 ltac:(lia) ltac:(lia)) as (m1 & E4 & R4).
        * rewrite R1. cbn [b_size]. assert (w * k <= padElems B * k) by (apply Z.mul_le_mono_nonneg_r; lia). lia.
        * exact Y0.
        * rewrite SM, DZ. lia.
        * apply rowed_start.
        * intros i I. rewrite Z.add_0_l. rewrite (leval_stored k o1 (i * k) (rowsH i y)); [reflexivity | exact K1 | apply vfin_range; assumption |].
          intros j J. specialize (R2 i ltac:(lia) ltac:(right; lia) j J). rewrite Z.add_0_l in R2. rewrite R2. f_equal. unfold rowsH. f_equal. apply (line_full p3 16 y 0 (Z.min w (hblk B))); [exact HD | lia].
        * rewrite E4. cbn [obind]. exists m1, t1. split; [reflexivity|]. split; [exact T1|]. eapply rowed_weaken; [|exact R4]. intros x X U. right. lia. }
  destruct G1 as (m1 & t1 & E4 & T1 & R1). rewrite E4. cbn [obind].
  (* the middle *)
  assert (G2 : exists m2 t2, (if hblk B <? v then scanH B k g src y (hblk B) (y * p_stride dst + hblk B * k) (v - hblk B) (m1, t1) else Ok (m1, t1)) = Ok (m2, t2) /\ b_size t2 = b_size t /\
         rowed k wR (y * p_stride dst) (fun x => rowsH x y) (fun u => u < Z.min w v) m m2).
  { destruct (Z.ltb_spec (hblk B) v) as [L|L].
    - specialize (VL L). assert (BV : blocksOf B (v - hblk B) * pels B = v - hblk B) by (replace (v - hblk B) with ((q * hq - hq) * pels B) by (rewrite VP, HQ; ring); apply blocks_mul).
      pose proof (src_row y (w - 1) Y ltac:(lia)) as SR1. pose proof (src_row y 0 Y ltac:(lia)) as SR0.
      destruct (scanH_ok B k g KB K LM N3 NO MV src y (hblk B) wR (y * p_stride dst) (fun x => rowsH x y) m (fun u => u < Z.min w (hblk B)) m1 t1 (y * p_stride dst + hblk B * k) (hblk B) (v - hblk B)) as (m2 & t2 & E & T2 & R & _).
      + intros NL. rewrite T1. apply TF; lia.
      + exact Y0.
      + rewrite SM, DZ. lia.
      + reflexivity.
      + rewrite HQ. apply base_aligned.
      + lia.
      + lia.
      + rewrite BV. lia.
      + exact R1.
      + intros; lia.
      + exact BB.
      + assert (0 <= (hblk B - s) * k) by (apply Z.mul_nonneg_nonneg; lia). fold s. lia.
      + rewrite BV. fold s. assert ((hblk B + (v - hblk B) - s + reach g - 1) * k <= (w - 1 + 1) * k) by (apply Z.mul_le_mono_nonneg_r; lia). lia.
      + intros x X. unfold rowsH, fin. f_equal. unfold full, horizontal. fold (g_size g) s. f_equal. apply map_ext_in. intros c C. apply In_zseq in C. fold N in C. f_equal. cbn [i_w a imageOf].
        rewrite mirrored_id by lia. rewrite px_pel. f_equal. lia.
      + exists m2, t2. split; [exact E|]. split; [congruence|]. eapply rowed_weaken; [|exact R]. intros x X U. destruct (Z.lt_ge_cases x (hblk B)); [left; lia | right; lia].
    - exists m1, t1. split; [reflexivity|]. split; [exact T1|]. eapply rowed_weaken; [|exact R1]. intros x X U. cbv beta in *. lia. }
  destruct G2 as (m2 & t2 & E5 & T2 & R2). match goal with |- context [obind ?X _] => replace X with (@Ok state (m2, t2)) by (symmetry; exact E5) end. cbn [obind].
  (* the end *)
  destruct (Z.ltb_spec (hblk B) w) as [L|L].
  - specialize (VW L). destruct (right_ok y p3 Y L BP3 SP3) as (p4 & p5 & E6 & E7 & SP5 & BP5 & HD5). fold v in E6, E7, HD5. rewrite E6. cbn [obind]. rewrite E7. cbn [obind].
    pose proof (blocks_cover (w - v) ltac:(lia)) as BL. pose proof (blocks_shift (q * hq) (w - v)) as BS. rewrite <- VP in BS. replace (v + (w - v)) with w in BS by lia. fold wR in BS.
    assert (BM : blocksOf B (w - v) * pels B <= padElems B - 32).
    { clear - VW BL PC. destruct PC as [(P1 & Hh & P3)|[(P1 & Hh & P3)|(P1 & Hh & P3)]]; rewrite P1, ?P3, ?Hh in *; lia. }
    destruct (scanH_ok B k g KB K LM N3 NO MV (line p5) 0 16 wR (y * p_stride dst) (fun x => rowsH x y) m (fun u => u < Z.min w v) m2 t2 (y * p_stride dst + v * k) v (w - v)) as (m3 & t3 & E & T3 & R & _).
    + intros NL. rewrite T2. apply TF; lia.
    + exact Y0.
    + rewrite SM, DZ. lia.
    + reflexivity.
    + rewrite VP. apply base_aligned.
    + lia.
    + lia.
    + lia.
    + exact R2.
    + intros; lia.
    + exact BP5.
    + cbn [line p_stride]. rewrite Z.mul_0_l. apply Z.mul_nonneg_nonneg; fold s; lia.
    + cbn [line p_stride p_buf]. rewrite SP5. apply FITS. fold s. lia.
    + intros x X. unfold rowsH, fin. f_equal. symmetry. apply (line_full p5 16 y v w); [exact HD5 | lia].
    + rewrite E. cbn [obind]. exists m3, t3, p5. split; [reflexivity|]. split; [congruence|]. split; [exact BP5|]. split; [exact SP5|]. eapply rowed_weaken; [|exact R]. intros x X U. destruct (Z.lt_ge_cases x v); [left; lia | right; lia].
  - exists m2, t2, p3. split; [reflexivity|]. split; [exact T2|]. split; [exact BP3|]. split; [exact SP3|]. eapply rowed_weaken; [|exact R2]. intros x X U. cbv beta in *. lia.
Qed.

Lemma convHV_ok : (forall z, 0 <= sc_pad sc z < 256) ->
  exists m, convHV B k g sc src w h dst = Ok m /\ b_size m = b_size (p_buf dst) /\ same (imageOf k (mkPl (p_stride dst) m) w h) (weighed fin (horizontal (g_matrix g)) a).
Proof.
  intros SC. pose proof k1 as K1. destruct (stride_fits dst WD AD) as (D1 & D2 & D3). pose proof (blocks_cover w ltac:(lia)) as BC. fold wR in BC.
  destruct (planeT_ok k w wR h rowsH (fun y st => rowH B k g sc src w (p_stride dst) y st) (fun st => fst (fst st))
    (fun st => (13 < N -> b_size (snd (fst st)) = (w + pels B) * 4) /\ bytes (snd st) /\ b_size (snd st) = padElems B * k) dst
    ((p_buf dst, tmpOf B (13 <? g_size g) w (sc_tmp sc)), mkB (padElems B * k) (sc_pad sc))) as (((m & t) & pad) & E & M & SM); auto; try lia.
  - cbn [fst snd b_size]. split; [|split; [exact SC | reflexivity]]. intros L. unfold tmpOf. cbn [b_size]. fold N. replace (13 <? N) with true by lia. reflexivity.
  - intros y ((m & t) & pad) Y (T & BP & SP) M. cbn [fst snd] in *. destruct (rowH_ok y m t pad Y T BP SP M) as (m' & t' & pad' & E & TS & BP' & SP' & R).
    exists ((m', t'), pad'). split; [exact E|]. cbn [fst snd]. split; [|exact R]. split; [intros L; rewrite TS; auto|]. tauto.
  - intros x y X Y. apply vfin_range; assumption.
  - exists m. unfold convHV. rewrite E. cbn [obind fst]. split; [reflexivity|]. split; [exact M | exact SM].
Qed.

(** ** Separable *)

(** What the horizontal pass reads of tmp1 lies inside it. *)
Definition roomX : Prop := wR + reach g - 1 - s <= w + 32.

Lemma rowX_ok : s < h -> roomX -> forall y m t r, 0 <= y < h -> (9 < N -> b_size t = (w + pels B) * 4) -> bytes r -> b_size r = (w + 64) * k -> b_size m = b_size (p_buf dst) ->
  exists m' t' r', rowX B k g src w h (p_stride dst) y ((m, t), r) = Ok ((m', t'), r') /\ b_size t' = b_size t /\ bytes r' /\ b_size r' = (w + 64) * k /\
    rowed k wR (y * p_stride dst) (fun x => fin (horizontal (g_matrix g) (weighed fin (vertical (g_matrix g)) a) x y)) (fun u => u < w) m m'.
Proof.
  intros SH ROOM y m t r Y TS BR SRr SM. pose proof k1 as K1. pose proof s_is as (NE & SR). pose proof pels_cases as PC. pose proof reach_le as RL.
  destruct (stride_fits dst WD AD) as (D1 & D2 & D3). destruct (stride_fits src WS AS) as (S1 & S2 & S3). destruct WD as (_ & _ & DW & DZ). destruct WS as (_ & _ & SW & SZ).
  pose proof (blocks_cover w ltac:(lia)) as BC. fold wR in BC.
  assert (Y0 : 0 <= y * p_stride dst) by (apply Z.mul_nonneg_nonneg; lia). assert (YH : (y + 1) * p_stride dst <= h * p_stride dst) by (apply Z.mul_le_mono_nonneg_r; lia).
  assert (FITS : forall e, 0 <= e <= w + 64 -> e * k <= (w + 64) * k) by (intros; apply Z.mul_le_mono_nonneg_r; lia).
  set (mid := fun x => rowsV x y).
  unfold rowX.
  destruct (scanV_ok B k g KB K LM N3 NO MV src (gatherRow g h y) h (32 + wR) 0 (fun x => mid (x - 32)) r (fun _ => False) r t (32 * k) 32 w) as (r1 & t1 & E1 & T1 & (R1 & R2 & R3) & BY).
  - intros NL. rewrite TS by exact NL. fold wR. lia.
  - lia.
  - rewrite SRr, Z.add_0_l. apply FITS. lia.
  - lia.
  - destruct PC as [(-> & _)|[(-> & _)|(-> & _)]]; [replace (32 * k) with (4 * (8 * k)) by ring; apply Z.mod_mul; lia | replace (32 * k) with (2 * (16 * k)) by ring; apply Z.mod_mul; lia | apply Z.mod_same; lia].
  - lia.
  - lia.
  - fold wR. lia.
  - split; [reflexivity|]. split; [intros; contradiction | reflexivity].
  - tauto.
  - exact BB.
  - exact S1.
  - exact S3.
  - exact S2.
  - exact SZ.
  - intros c C. rewrite gather_is by (try exact SH; unfold N; lia). apply mirrored_in. lia.
  - intros x X. replace (32 + x - 32) with x by lia. unfold mid, rowsV, vertical, full, fin. do 2 f_equal. fold (g_size g). apply map_ext_in. intros c C. apply In_zseq in C.
    rewrite gather_is by (try exact SH; unfold N; lia). reflexivity.
  - rewrite E1. cbn [obind fst snd]. specialize (BY BR).
    assert (V1 : forall x, 0 <= x < w -> pel k (line r1) 0 (32 + x) = mid x).
    { intros x X. rewrite pel_line. apply leval_stored; [exact K1 | apply vfin_range; assumption |]. intros j J. specialize (R2 (32 + x) ltac:(lia) ltac:(right; lia) j J). rewrite Z.add_0_l in R2. rewrite R2. f_equal. f_equal. lia. }
    destruct (flipLeft_ok k 32 12 r1 K1 BY ltac:(lia)) as (r2 & E2 & S4 & A2 & U2 & B2); [rewrite R1, SRr; apply FITS; lia|]. rewrite E2. cbn [obind].
    destruct (flipRight_ok k (32 + w) 12 r2 K1 B2 ltac:(lia)) as (r3 & E3 & S5 & A3 & U3 & B3); [rewrite S4, R1, SRr; apply FITS; lia|]. rewrite E3. cbn [obind].
    assert (V3 : forall x, - s <= x < w + s -> pel k (line r3) 0 (32 + x) = mid (mirrored w x)).
    { intros x X. assert (C : x < 0 \/ 0 <= x < w \/ w <= x) by lia. destruct C as [C|[C|C]].
      - rewrite U3 by lia. rewrite mirror_lo by lia. replace (32 + x) with (32 - 1 - (-1 - x)) by lia. rewrite A2 by lia. apply V1. lia.
      - rewrite U3, U2 by lia. rewrite mirrored_id by lia. apply V1. lia.
      - rewrite mirror_hi by lia. replace (32 + x) with (32 + w + (x - w)) by lia. rewrite A3 by lia. replace (32 + w - 1 - (x - w)) with (32 + (2 * w - 1 - x)) by lia. rewrite U2 by lia. apply V1. lia. }
    destruct (scanH_ok B k g KB K LM N3 NO MV (line r3) 0 32 wR (y * p_stride dst) (fun x => fin (horizontal (g_matrix g) (weighed fin (vertical (g_matrix g)) a) x y)) m (fun u => u < 0) m t1 (y * p_stride dst) 0 w) as (m1 & t2 & E & T2 & R & _).
    + intros NL. rewrite T1, TS by (unfold N; lia). fold wR. lia.
    + exact Y0.
    + rewrite SM, DZ. lia.
    + lia.
    + apply row_aligned.
    + lia.
    + lia.
    + fold wR. lia.
    + apply rowed_start.
    + intros; lia.
    + exact B3.
    + cbn [line p_stride]. rewrite Z.mul_0_l. apply Z.mul_nonneg_nonneg; fold s; lia.
    + cbn [line p_stride p_buf]. rewrite S5, S4, R1, SRr, Z.mul_0_l, Z.add_0_l. fold wR s. apply FITS. unfold roomX in ROOM. lia.
    + intros x X. rewrite Z.add_0_l. unfold fin. f_equal. unfold full, horizontal. fold (g_size g) s. f_equal. apply map_ext_in. intros c C. apply In_zseq in C. fold N in C. f_equal.
      replace (32 + x - s + c) with (32 + (x + c - s)) by lia. rewrite V3 by lia. reflexivity.
    + rewrite E. cbn [obind]. exists m1, t2, r3. split; [reflexivity|]. split; [congruence|]. split; [exact B3|]. split; [congruence|]. eapply rowed_weaken; [|exact R]. intros x X U. right. lia.
Qed.

Lemma convXV_ok : s < h -> roomX -> (forall z, 0 <= sc_row sc z < 256) ->
  exists m, convXV B k g sc src w h dst = Ok m /\ b_size m = b_size (p_buf dst) /\
    same (imageOf k (mkPl (p_stride dst) m) w h) (weighed fin (horizontal (g_matrix g)) (weighed fin (vertical (g_matrix g)) a)).
Proof.
  intros SH ROOM SC. pose proof k1 as K1. destruct (stride_fits dst WD AD) as (D1 & D2 & D3). pose proof (blocks_cover w ltac:(lia)) as BC. fold wR in BC.
  destruct (planeT_ok k w wR h (fun x y => fin (horizontal (g_matrix g) (weighed fin (vertical (g_matrix g)) a) x y)) (fun y st => rowX B k g src w h (p_stride dst) y st) (fun st => fst (fst st))
    (fun st => (9 < N -> b_size (snd (fst st)) = (w + pels B) * 4) /\ bytes (snd st) /\ b_size (snd st) = (w + 64) * k) dst
    ((p_buf dst, tmpOf B (9 <? g_size g) w (sc_tmp sc)), mkB ((w + 64) * k) (sc_row sc))) as (((m & t) & r) & E & M & SM); auto; try lia.
  - cbn [fst snd b_size]. split; [|split; [exact SC | reflexivity]]. intros L. unfold tmpOf. cbn [b_size]. fold N. replace (9 <? N) with true by lia. reflexivity.
  - intros y ((m & t) & r) Y (T & BP & SP) M. cbn [fst snd] in *. destruct (rowX_ok SH ROOM y m t r Y T BP SP M) as (m' & t' & r' & E & TS & BP' & SP' & R).
    exists ((m', t'), r'). split; [exact E|]. cbn [fst snd]. split; [|exact R]. split; [intros L; rewrite TS; auto|]. tauto.
  - intros x y X Y. apply vfin_range; assumption.
  - exists m. unfold convXV. rewrite E. cbn [obind fst]. split; [reflexivity|]. split; [exact M | exact SM].
Qed.
End Planes.
