(** The scanlines of convolution_impl.h: which samples they read and what they write. *)
From Coq Require Import ZArith List Lia Bool.
From Coq Require Import SpecFloat.
From Verif Require Import Common ImageSpec PlaneMem Spatial SpatialLemmas Pixel PixelLemmas PixelSpec Lut LutLemmas Soft GenericSpec Generic GenericLemmas GenericOps GenericPlanes
  Simd MergeSimdLemmas GenericSimd GenericSimdLanes GenericSimdFloat GenericSimdOps SquareSimd SquareSimdFloat SquareSimdLanes SquareSimdPlanes ConvSimd ConvSimdLanes.
Import Soft ListNotations.
Open Scope Z_scope.

Definition bytes (m : pbuf) : Prop := forall a, 0 <= b_data m a < 256.
(** Element [x] of row [row]. *)
Definition pel (k : Z) (p : plane) (row x : Z) : Z := leval (Z.to_nat k) (b_data (p_buf p)) (row * p_stride p + x * k).

Lemma byte_range : forall v j, 0 <= byteOf v j < 256.
Proof. intros v j. unfold byteOf. apply Z.mod_pos_bound. lia. Qed.

Lemma storeLanes_bytes : forall k l m o m', 1 <= k -> 0 <= o -> o + zlength l * k <= b_size m -> bytes m -> storeLanes k m o l = Ok m' -> bytes m'.
Proof.
  intros k l m o m' K O E BB F. destruct (storeLanes_spec k l m o K O E) as (m2 & F2 & _ & A & U). rewrite F in F2. injection F2 as <-.
  intros a. assert (C : (a < o \/ o + zlength l * k <= a) \/ o <= a < o + zlength l * k) by lia. destruct C as [C|C]; [rewrite U by exact C; apply BB|].
  set (t := (a - o) / k). set (j := (a - o) mod k).
  pose proof (Z.div_mod (a - o) k ltac:(lia)) as DM. pose proof (Z.mod_pos_bound (a - o) k ltac:(lia)) as MB. fold t j in DM, MB.
  assert (T : 0 <= t < zlength l) by (split; [apply Z.div_pos; lia | apply Z.div_lt_upper_bound; lia]).
  destruct (proj2 (nthz_Some_iff _ l t) T) as (v & Ev). replace a with (o + t * k + j) by lia. rewrite (A t v Ev j MB). apply byte_range.
Qed.

Lemma pel_range : forall k p row x, 0 <= k -> bytes (p_buf p) -> 0 <= pel k p row x < 256 ^ k.
Proof. intros k p row x K BB. pose proof (leval_range (Z.to_nat k) (b_data (p_buf p)) (row * p_stride p + x * k) BB) as L. rewrite Z2Nat.id in L by exact K. exact L. Qed.

Lemma storeBlock_any : forall k w base val m0 P m j l lim, 1 <= k -> 0 <= base -> base + w * k <= b_size m0 -> 0 <= j -> j + zlength l <= w -> rowed k w base val P m0 m ->
  (forall t v, nthz l t = Some v -> j + t < lim -> v = val (j + t)) ->
  exists m', storeLanes k m (base + j * k) l = Ok m' /\ rowed k w base val (fun u => u < j /\ P u \/ j + zlength l <= u /\ P u \/ j <= u < j + zlength l /\ u < lim) m0 m' /\ (bytes m -> bytes m').
Proof.
  intros k w base val m0 P m j l lim K B0 SZ J E (R1 & R2 & R3) VL. pose proof (zlength_nonneg _ l) as L0.
  assert (BD : (j + zlength l) * k <= w * k) by (apply Z.mul_le_mono_nonneg_r; lia). assert (0 <= j * k) by (apply Z.mul_nonneg_nonneg; lia).
  assert (FIT : base + j * k + zlength l * k <= b_size m) by (rewrite R1; lia).
  destruct (storeLanes_spec k l m (base + j * k) K ltac:(lia) FIT) as (m' & Em & S & A & O).
  exists m'. split; [exact Em|]. split; [|intros BB; apply (storeLanes_bytes k l m (base + j * k)); auto; lia]. split; [congruence|]. split.
  - intros x X Q t T. assert (C : x < j \/ j + zlength l <= x \/ j <= x < j + zlength l) by lia. destruct C as [C|[C|C]].
    + rewrite O by (left; assert ((x + 1) * k <= j * k) by (apply Z.mul_le_mono_nonneg_r; lia); lia). apply R2; [exact X | | exact T]. destruct Q as [Q|[Q|Q]]; [tauto | lia | lia].
    + rewrite O by (right; assert ((j + zlength l) * k <= x * k) by (apply Z.mul_le_mono_nonneg_r; lia); lia). apply R2; [exact X | | exact T]. destruct Q as [Q|[Q|Q]]; [lia | tauto | lia].
    + destruct (proj2 (nthz_Some_iff _ l (x - j)) ltac:(lia)) as (v & Ev). assert (v = val x) by (rewrite (VL _ _ Ev) by (destruct Q as [Q|[Q|Q]]; lia); f_equal; lia).
      rewrite <- H0, <- (A (x - j) v Ev t T). f_equal. ring.
  - intros b Hb. rewrite O by (assert (0 <= zlength l * k) by (apply Z.mul_nonneg_nonneg; lia); lia). apply R3. exact Hb.
Qed.

Lemma abs_sum : forall (f : Z -> Z) M u, 0 <= u -> 0 <= M -> (forall c, 0 <= c < u -> Z.abs (f c) <= M) -> Z.abs (sumL (map f (zseq u))) <= u * M.
Proof.
  intros f M u U M0. pattern u. apply natlike_ind; [intros _; reflexivity | | exact U]. intros n Hn IH FB. unfold Z.succ. rewrite sumL_snoc by exact Hn.
  specialize (IH ltac:(intros; apply FB; lia)). specialize (FB n ltac:(lia)). lia.
Qed.

Section Scan.
Variables (B : backend) (k : Z) (g : gparams).
Hypothesis KB : known B.
Hypothesis K : smallk k.
Hypothesis LM : legalMatrix (g_matrix g).
Hypothesis N3 : 3 <= g_size g <= 25.
Hypothesis NO : Z.odd (g_size g) = true.
Hypothesis MV : 0 <= g_maxval g < 256 ^ k.
Let nb := be_nb B.
Let N := g_size g.
Let s := g_size g / 2.
Let cf (i : Z) : Z := GenericSpec.coef (g_matrix g) i.

(** What the vector code makes of a sum. *)
Definition vfin (v : Z) : Z :=
  let c := cvtI (scaledB B g (of32 v 0)) in
  if k =? 1 then satu8of16 (sats16of32 c) else wunsignL B (wminL B (packWordL B (wsign32L B c)) (wmaxvalL B (g_maxval g))).

Lemma vfin_range : forall v, 0 <= vfin v < 256 ^ k.
Proof.
  intros v. unfold vfin. pose proof MV as M. destruct K as [Q|Q]; rewrite Q in *; cbn [Z.eqb Pos.eqb].
  - change (256 ^ 1) with 256. unfold satu8of16. rewrite clampZ_minmax; lia.
  - change (256 ^ 2) with 65536 in *. destruct KB as [->|[->| ->]]; unfold wunsignL, wminL, packWordL, wsign32L, wmaxvalL; cbn [be_biased sse2 avx2 avx512].
    + apply wrapu16_range.
    + unfold minu, satu16of32, wrapu16. rewrite clampZ_minmax by lia. rewrite Z.mod_small by lia. destruct (_ <? _); lia.
    + unfold minu, satu16of32, wrapu16. rewrite clampZ_minmax by lia. rewrite Z.mod_small by lia. destruct (_ <? _); lia.
Qed.

(** The weighted sum of the samples [v 0], [v 1], ... *)
Definition full (v : Z -> Z) : Z := sumL (map (fun c => cf c * v c) (zseq N)).

Lemma full_bound : forall v, (forall c, 0 <= c < N -> 0 <= v c < 256 ^ k) -> Z.abs (full v) <= 1676083200.
Proof.
  intros v R. unfold full. etransitivity; [apply (abs_sum _ (1023 * 65535)); [unfold N; lia | lia |]|].
  - intros c C. specialize (R c C). pose proof (cfRange g LM c) as CR. rewrite Z.abs_mul. assert (256 ^ k <= 65536) by (destruct K as [->| ->]; vm_compute; discriminate).
    apply Z.mul_le_mono_nonneg; unfold cf; lia.
  - unfold N. lia.
Qed.

Lemma wordBias_spec : wordBias k g = Ok (if k =? 1 then 0 else -32768 * sumL (map cf (zseq N))).
Proof.
  unfold wordBias. destruct (k =? 1); [reflexivity|]. fold N.
  destruct (forZ_inv (fun u wb => wb = -32768 * sumL (map cf (zseq u))) (fun i wb => chk32 (wb + -32768 * GenericSimd.coef g i)) N 0 ltac:(unfold N; lia)) as (q & Fq & Q).
  - reflexivity.
  - intros u q U ->. rewrite sumL_snoc by lia. change (GenericSimd.coef g u) with (cf u).
    pose proof (abs_sum cf 1023 u ltac:(lia) ltac:(lia) ltac:(intros c _; pose proof (cfRange g LM c); unfold cf; lia)) as BD. assert (CU : -1023 <= cf u <= 1023) by exact (cfRange g LM u).
    eexists. split; [|reflexivity]. assert (u * 1023 <= 24 * 1023) by (unfold N in U; lia).
    unfold chk32. replace (in_intb _) with true; [f_equal; lia|]. symmetry. apply in_intb_spec. unfold in_int, INT_MIN, INT_MAX. lia.
  - rewrite Fq, Q. reflexivity.
Qed.

Lemma upTo_full : forall (v : Z -> Z -> nat -> Z) b i, upTo k g v N b i - (if k =? 1 then 0 else -32768 * sumL (map cf (zseq N))) = full (fun c => v c b i).
Proof.
  intros v b i. unfold upTo, full, seen. destruct (k =? 1); [fold cf; unfold cf; lia|].
  assert (G : forall u, 0 <= u -> sumL (map (fun c => GenericSpec.coef (g_matrix g) c * (v c b i - 32768)) (zseq u)) - -32768 * sumL (map cf (zseq u)) = sumL (map (fun c => cf c * v c b i) (zseq u))).
  { intros u U. pattern u. apply natlike_ind; [reflexivity | | exact U]. intros n Hn IH. unfold Z.succ. rewrite !sumL_snoc by exact Hn. unfold cf in *. lia. }
  apply G. unfold N. lia.
Qed.

Lemma N25 : 1 <= N <= 25.
Proof. unfold N. lia. Qed.
Lemma nb1 : 1 <= Z.of_nat nb.
Proof. apply nb_pos. exact KB. Qed.
Lemma pels_nb : pels B = 8 * Z.of_nat nb.
Proof. reflexivity. Qed.

(** The registers that a last pass stores. *)
Lemma convPut_ok : forall w base val m0 P m base0 off n b v, 0 <= base -> base + w * k <= b_size m0 -> base0 = base + off * k -> base0 mod (pels B * k) = 0 ->
  0 <= off -> 0 <= b -> off + (b + 1) * pels B <= w -> rowed k w base val P m0 m ->
  (forall c i, 0 <= c < N -> 0 <= v c b i < 256 ^ k) ->
  (forall i, b * pels B + Z.of_nat i < n -> val (off + b * pels B + Z.of_nat i) = vfin (full (fun c => v c b i))) ->
  (forall u, off + b * pels B <= u -> ~ P u) ->
  exists m', convPut B k g (if k =? 1 then 0 else -32768 * sumL (map cf (zseq N))) base0 (b * pels B) (accOf nb (fun i => wrapu32 (upTo k g v N b i))) m = Ok m' /\
    rowed k w base val (fun u => P u \/ off + b * pels B <= u < off + (b + 1) * pels B /\ u < off + n) m0 m' /\ (bytes m -> bytes m').
Proof.
  intros w base val m0 P m base0 off n b v B0 SZ EB AL OF Bb FIT RD VR VAL NP. pose proof nb1 as NB1. pose proof pels_nb as PN. assert (K1 : 1 <= k) by (destruct K; lia).
  unfold convPut. replace (storeAligned B k (base0 + b * pels B * k)) with true.
  2:{ symmetry. unfold storeAligned. apply orb_true_iff. right. apply Z.eqb_eq. rewrite <- Z.mul_assoc, Z.mod_add by nia. exact AL. }
  set (wb := if k =? 1 then 0 else -32768 * sumL (map cf (zseq N))).
  set (l := if k =? 1 then _ else _).
  assert (LE : l = map (fun i => vfin (full (fun c => v c b i))) (seq 0 (8 * nb))).
  { assert (SB : forall i, s32 (wrapu32 (full (fun c => v c b i))) = full (fun c => v c b i)) by (intros i; apply s32_wrap32; pose proof (full_bound (fun c => v c b i) (fun c => VR c i)); lia).
    unfold l, wb, vfin. destruct (Z.eqb_spec k 1) as [E1|E1].
    - unfold nb. rewrite outByteB_map by exact KB. apply map_ext. intros i. unfold cvtF.
      assert (E : upTo k g v N b i = full (fun c => v c b i)) by (rewrite <- (upTo_full v b i), (proj2 (Z.eqb_eq k 1) E1); lia).
      rewrite E, SB. reflexivity.
    - pose proof (subB B (-32768 * sumL (map cf (zseq N))) (fun i => wrapu32 (upTo k g v N b i)) KB) as SM. cbv zeta in SM. fold nb in SM. rewrite SM.
      unfold nb. rewrite outWordB_map by exact KB. apply map_ext. intros i. unfold cvtF.
      assert (E : Simd.sub32 (wrapu32 (upTo k g v N b i)) (wrapu32 (-32768 * sumL (map cf (zseq N)))) = wrapu32 (full (fun c => v c b i))).
      { unfold Simd.sub32, wrapu32. rewrite Zminus_mod_idemp_l, Zminus_mod_idemp_r. f_equal. rewrite <- (upTo_full v b i), (proj2 (Z.eqb_neq k 1) E1). reflexivity. }
      rewrite E, SB. reflexivity. }
  assert (ZL : zlength l = pels B) by (rewrite LE; unfold zlength; rewrite map_length, seq_length; lia).
  replace (base0 + b * pels B * k) with (base + (off + b * pels B) * k) by (rewrite EB; ring).
  assert (BP : 0 <= b * pels B) by (apply Z.mul_nonneg_nonneg; lia).
  destruct (storeBlock_any k w base val m0 P m (off + b * pels B) l (off + n) K1 B0 SZ ltac:(lia) ltac:(rewrite ZL; lia) RD) as (m' & E & R & BY).
  - intros t v0 Ev LT. pose proof (nthz_range _ _ _ _ Ev) as TR. rewrite LE in Ev. unfold nthz in Ev. destruct (Z.ltb_spec t 0); [discriminate|].
    rewrite (map_nth_error _ (Z.to_nat t) (seq 0 (8 * nb)) (d := Z.to_nat t)) in Ev.
    + injection Ev as <-. replace (off + b * pels B + t) with (off + b * pels B + Z.of_nat (Z.to_nat t)) by lia. symmetry. apply VAL. lia.
    + rewrite (nth_error_nth' _ 0%nat) by (rewrite seq_length; lia). rewrite seq_nth by lia. reflexivity.
  - exists m'. split; [exact E|]. split; [|exact BY]. apply (rowed_weaken k w base val m0 (fun u => u < off + b * pels B /\ P u \/ off + b * pels B + zlength l <= u /\ P u \/ off + b * pels B <= u < off + b * pels B + zlength l /\ u < off + n)); [|exact R].
    intros x X [Q|Q].
    + left. split; [|exact Q]. destruct (Z.le_gt_cases (off + b * pels B) x) as [L|L]; [exfalso; apply (NP x L Q) | lia].
    + right. right. rewrite ZL. lia.
Qed.

(** ** All passes of a scanline *)

Lemma scan_ok : forall load l w base val m0 P m t base0 off n v, covers l 0 N -> (1 < zlength l -> blocksOf B n * pels B * 4 <= b_size t) ->
  0 <= base -> base + w * k <= b_size m0 -> base0 = base + off * k -> base0 mod (pels B * k) = 0 -> 0 <= off -> 0 <= n -> off + blocksOf B n * pels B <= w ->
  rowed k w base val P m0 m -> (forall u, off <= u -> ~ P u) ->
  (forall q, In q l -> forall b, 0 <= b < blocksOf B n -> loaded B k (fst q) (load q (b * pels B)) (fun c => v (snd q + c) b)) ->
  (forall c b i, 0 <= c < N -> 0 <= b < blocksOf B n -> 0 <= v c b i < 256 ^ k) ->
  (forall b i, 0 <= b < blocksOf B n -> b * pels B + Z.of_nat i < n -> val (off + b * pels B + Z.of_nat i) = vfin (full (fun c => v c b i))) ->
  exists m' t', passes B true l n (fun q j => tapsPass B g (fst q) (snd q) (load q j)) (convPut B k g (if k =? 1 then 0 else -32768 * sumL (map cf (zseq N))) base0) (m, t) = Ok (m', t') /\
    b_size t' = b_size t /\ rowed k w base val (fun u => P u \/ off <= u < off + n) m0 m' /\ (bytes m -> bytes m').
Proof.
  intros load l w base val m0 P m t base0 off n v CV SZT B0 SZ EB AL OF N0 FIT RD NP LD VR VAL. pose proof nb1 as NB1. pose proof pels_nb as PN.
  assert (CE : n <= blocksOf B n * pels B) by (unfold blocksOf; pose proof (Z.div_mod (n + pels B - 1) (pels B) ltac:(lia)); pose proof (Z.mod_pos_bound (n + pels B - 1) (pels B) ltac:(lia)); lia).
  destruct (passes_ok B k g KB K LM n load (convPut B k g (if k =? 1 then 0 else -32768 * sumL (map cf (zseq N))) base0) v
    (fun b m1 => rowed k w base val (fun u => P u \/ off <= u < off + b * pels B /\ u < off + n) m0 m1 /\ (bytes m -> bytes m1)) N m N0) with (l := l) (first := true) (K0 := 0) (t := t)
    as (m' & t' & E & S & R & BY); auto; try lia.
  - intros b m1 Bb (R1 & BY1).
    assert (NB2 : (b + 1) * pels B <= blocksOf B n * pels B) by (apply Z.mul_le_mono_nonneg_r; lia).
    destruct (convPut_ok w base val m0 (fun u => P u \/ off <= u < off + b * pels B /\ u < off + n) m1 base0 off n b v B0 SZ EB AL OF ltac:(lia) ltac:(lia) R1 ltac:(intros; apply VR; lia) ltac:(intros; apply VAL; lia)) as (m2 & E2 & R2 & BY2).
    + assert (0 <= b * pels B) by (apply Z.mul_nonneg_nonneg; lia). intros u U [Q|Q]; [apply (NP u ltac:(lia) Q) | lia].
    + exists m2. split; [exact E2|]. split; [|auto]. apply (rowed_weaken k w base val m0 (fun u => (P u \/ off <= u < off + b * pels B /\ u < off + n) \/ off + b * pels B <= u < off + (b + 1) * pels B /\ u < off + n)); [|exact R2].
      intros x X [Q|Q]; [tauto|]. destruct (Z.le_gt_cases (off + b * pels B) x); [right; lia | left; right; lia].
  - split; [|auto]. apply (rowed_weaken k w base val m0 P); [|exact RD]. intros x X [Q|Q]; [exact Q | lia].
  - exists m', t'. split; [exact E|]. split; [exact S|]. split; [|exact BY]. apply (rowed_weaken k w base val m0 (fun u => P u \/ off <= u < off + blocksOf B n * pels B /\ u < off + n)); [|exact R].
    intros x X [Q|Q]; [tauto | right; lia].
Qed.

(** ** Loads *)

Lemma loadPels_pel : forall p row x, 0 <= row * p_stride p + x * k -> row * p_stride p + (x + pels B) * k <= b_size (p_buf p) ->
  loadPels nb k p row x = Ok (map (fun i => lane k (pel k p row (x + Z.of_nat i))) (seq 0 (8 * nb))).
Proof.
  intros p row x X E. unfold loadPels. assert (K1 : 1 <= k) by (destruct K; lia). pose proof pels_nb as PN.
  destruct (loadLanes_spec k (8 * nb) (p_buf p) (row * p_stride p + x * k) K1 X) as (l & -> & L & V); [lia|].
  cbn [obind]. f_equal.
  assert (LE : l = map (fun i => pel k p row (x + Z.of_nat i)) (seq 0 (8 * nb))).
  { apply nthz_ext; [unfold zlength; rewrite map_length, seq_length; unfold zlength in L; lia|].
    intros t T. rewrite V by lia. unfold nthz. destruct (Z.ltb_spec t 0); [lia|]. symmetry.
    rewrite (map_nth_error _ (Z.to_nat t) (seq 0 (8 * nb)) (d := Z.to_nat t)).
    - f_equal. unfold pel. f_equal. lia.
    - rewrite (nth_error_nth' _ 0%nat) by (rewrite seq_length; lia). rewrite seq_nth by lia. reflexivity. }
  unfold lane. destruct (k =? 1); [exact LE|]. rewrite LE. unfold set16. cbn [be_nb].
  replace (8 * nb)%nat with (length (map (fun i => pel k p row (x + Z.of_nat i)) (seq 0 (8 * nb)))) at 2 by (rewrite map_length, seq_length; reflexivity).
  rewrite zip_repeat, map_map. reflexivity.
Qed.

(** The taps that the passes of a horizontal scanline load: one more than the matrix has, but for
    13 and 25. *)
Definition reach : Z := if (N =? 13) || (N =? 25) then N else N + 1.
Lemma odd_cases : exists h, N = 2 * h + 1 /\ 1 <= h <= 12 /\ s = h.
Proof.
  exists s. pose proof (Z.div_mod N 2 ltac:(lia)) as DM. assert (N mod 2 = 1) by (rewrite Zmod_odd; unfold N; rewrite NO; reflexivity). change (N / 2) with s in DM. unfold N in *. lia.
Qed.
Lemma reach_H : forall q, In q (splitH N) -> 0 <= snd q /\ snd q + loadsOf (fst q) <= reach.
Proof.
  intros q I. destruct odd_cases as (h & E & HR & _). unfold reach. rewrite E in *.
  assert (C : h = 1 \/ h = 2 \/ h = 3 \/ h = 4 \/ h = 5 \/ h = 6 \/ h = 7 \/ h = 8 \/ h = 9 \/ h = 10 \/ h = 11 \/ h = 12) by lia.
  repeat (destruct C as [->|C]; [cbn in I; destruct I as [<-|[<-|[]]] || destruct I as [<-|[]]; vm_compute; split; discriminate|]). subst h.
  cbn in I. destruct I as [<-|[<-|[]]]; vm_compute; split; discriminate.
Qed.
Lemma reach_V : forall q c, In q (splitV N) -> 0 <= c < loadsOf (fst q) -> 0 <= snd q + c /\ snd q + Z.min c (fst q - 1) = Z.min (snd q + c) (N - 1).
Proof.
  intros q c I C. destruct odd_cases as (h & E & HR & _). rewrite E in *.
  assert (LO : 0 <= c < 2 * ((fst q + 1) / 2) \/ 13 <= fst q /\ 0 <= c < 13) by (unfold loadsOf in C; destruct (Z.leb_spec 13 (fst q)); [right; lia | left; lia]). clear C. unfold splitV in I.
  destruct (Z.ltb_spec 19 (2 * h + 1)); [|destruct (Z.ltb_spec 9 (2 * h + 1))]; cbn [In] in I.
  - destruct I as [<-|[<-|[<-|[]]]]; cbn [fst snd] in *; Z.to_euclidean_division_equations; lia.
  - destruct I as [<-|[<-|[]]]; cbn [fst snd] in *; Z.to_euclidean_division_equations; lia.
  - destruct I as [<-|[]]; cbn [fst snd] in *; Z.to_euclidean_division_equations; lia.
Qed.

(** ** The two scanline kernels *)

Lemma scanH_ok : forall p row x0 w base val m0 P m t base0 off n, (13 < N -> blocksOf B n * pels B * 4 <= b_size t) ->
  0 <= base -> base + w * k <= b_size m0 -> base0 = base + off * k -> base0 mod (pels B * k) = 0 -> 0 <= off -> 0 <= n -> off + blocksOf B n * pels B <= w ->
  rowed k w base val P m0 m -> (forall u, off <= u -> ~ P u) -> bytes (p_buf p) ->
  0 <= row * p_stride p + (x0 - s) * k -> row * p_stride p + (x0 + blocksOf B n * pels B - s + reach - 1) * k <= b_size (p_buf p) ->
  (forall x, 0 <= x < n -> val (off + x) = vfin (full (fun c => pel k p row (x0 + x - s + c)))) ->
  exists m' t', scanH B k g p row x0 base0 n (m, t) = Ok (m', t') /\ b_size t' = b_size t /\ rowed k w base val (fun u => P u \/ off <= u < off + n) m0 m' /\ (bytes m -> bytes m').
Proof.
  intros p row x0 w base val m0 P m t base0 off n SZT B0 SZ EB AL OF N0 FIT RD NP BP LO HI VAL. assert (K1 : 1 <= k) by (destruct K; lia). pose proof pels_nb as PN. pose proof nb1 as NB1.
  unfold scanH. rewrite wordBias_spec. cbn [obind]. fold N s.
  apply (scan_ok (fun q j c => loadPels nb k p row (x0 + j - s + (snd q + c))) (splitH N) w base val m0 P m t base0 off n (fun c b i => pel k p row (x0 + b * pels B - s + c + Z.of_nat i))); auto.
  - apply (splitH_covers B). exact N25.
  - intros Z2. apply SZT. unfold splitH in Z2. destruct (Z.ltb_spec 13 N); [assumption | cbn in Z2; lia].
  - intros q I b Bb c C. destruct (reach_H q I) as (Q0 & QR). split.
    + assert (BL : (b + 1) * pels B <= blocksOf B n * pels B) by (apply Z.mul_le_mono_nonneg_r; lia). assert (0 <= b * pels B) by (apply Z.mul_nonneg_nonneg; lia).
      rewrite loadPels_pel.
      * reflexivity.
      * assert (0 <= (b * pels B + (snd q + c)) * k) by (apply Z.mul_nonneg_nonneg; lia). lia.
      * assert ((x0 + b * pels B - s + (snd q + c) + pels B) * k <= (x0 + blocksOf B n * pels B - s + reach - 1) * k) by (apply Z.mul_le_mono_nonneg_r; lia). lia.
    + intros i. apply pel_range; [lia | exact BP].
  - intros c b i C Bb. apply pel_range; [lia | exact BP].
  - intros b i Bb L. assert (0 <= b * pels B) by (apply Z.mul_nonneg_nonneg; lia). rewrite <- Z.add_assoc, VAL by lia. f_equal. unfold full. f_equal. apply map_ext. intros c. do 2 f_equal. lia.
Qed.

Lemma scanV_ok : forall p rows h w base val m0 P m t base0 off n, (9 < N -> blocksOf B n * pels B * 4 <= b_size t) ->
  0 <= base -> base + w * k <= b_size m0 -> base0 = base + off * k -> base0 mod (pels B * k) = 0 -> 0 <= off -> 0 <= n -> off + blocksOf B n * pels B <= w ->
  rowed k w base val P m0 m -> (forall u, off <= u -> ~ P u) -> bytes (p_buf p) ->
  p_stride p mod (pels B * k) = 0 -> 0 <= p_stride p -> blocksOf B n * pels B * k <= p_stride p -> b_size (p_buf p) = p_stride p * h -> (forall c, 0 <= c < N -> 0 <= rows c < h) ->
  (forall x, 0 <= x < n -> val (off + x) = vfin (full (fun c => pel k p (rows c) x))) ->
  exists m' t', scanV B k g p rows base0 n (m, t) = Ok (m', t') /\ b_size t' = b_size t /\ rowed k w base val (fun u => P u \/ off <= u < off + n) m0 m' /\ (bytes m -> bytes m').
Proof.
  intros p rows h w base val m0 P m t base0 off n SZT B0 SZ EB AL OF N0 FIT RD NP BP SA S0 SW SH RH VAL. assert (K1 : 1 <= k) by (destruct K; lia). pose proof pels_nb as PN. pose proof nb1 as NB1.
  unfold scanV. rewrite wordBias_spec. cbn [obind]. fold N. destruct odd_cases as (hh & NE & HR & SE).
  apply (scan_ok (fun q j c => loadRow B k p (rows (snd q + Z.min c (fst q - 1))) j) (splitV N) w base val m0 P m t base0 off n (fun c b i => pel k p (rows (Z.min c (N - 1))) (b * pels B + Z.of_nat i))); auto.
  - pose proof N25 as NN. clear - B NE HR NN. apply (splitV_covers B); lia.
  - intros Z2. apply SZT. unfold splitV in Z2. destruct (Z.ltb_spec 19 N); [lia|]. destruct (Z.ltb_spec 9 N); [assumption | cbn in Z2; lia].
  - intros q I b Bb c C. destruct (reach_V q c I C) as (Q0 & QE). split.
    + assert (BL : (b + 1) * pels B <= blocksOf B n * pels B) by (apply Z.mul_le_mono_nonneg_r; lia). assert (B1 : 0 <= b * pels B) by (apply Z.mul_nonneg_nonneg; lia).
      rewrite QE. set (r := rows (Z.min (snd q + c) (N - 1))). assert (RR : 0 <= r < h) by (apply RH; lia).
      assert (R0 : 0 <= r * p_stride p) by (apply Z.mul_nonneg_nonneg; lia). assert (R1 : (r + 1) * p_stride p <= h * p_stride p) by (apply Z.mul_le_mono_nonneg_r; lia).
      assert (BK : (b * pels B + pels B) * k <= blocksOf B n * pels B * k) by (apply Z.mul_le_mono_nonneg_r; lia). assert (BK0 : 0 <= b * pels B * k) by (apply Z.mul_nonneg_nonneg; lia).
      unfold loadRow. replace ((k =? 1) || ((r * p_stride p + b * pels B * k) mod (pels B * k) =? 0)) with true.
      * fold nb. rewrite loadPels_pel; [reflexivity | lia | lia].
      * symmetry. apply orb_true_iff. right. apply Z.eqb_eq. rewrite <- Z.mul_assoc, Z.mod_add by nia. rewrite Z.mul_mod, SA by nia. rewrite Z.mul_0_r. apply Z.mod_0_l. nia.
    + intros i. apply pel_range; [lia | exact BP].
  - intros c b i C Bb. apply pel_range; [lia | exact BP].
  - intros b i Bb L. assert (0 <= b * pels B) by (apply Z.mul_nonneg_nonneg; lia). rewrite <- Z.add_assoc, VAL by lia. f_equal. unfold full. f_equal. apply map_ext_in. intros c C. apply In_zseq in C.
    replace (Z.min c (N - 1)) with c by lia. reflexivity.
Qed.
End Scan.
