(** The blocks of the square convolution kernels: every lane holds the weighted sum of its own
    column. *)
From Coq Require Import ZArith List Lia Bool.
From Coq Require Import SpecFloat.
From Verif Require Import Common ImageSpec PlaneMem Spatial SpatialLemmas Pixel PixelLemmas PixelSpec Lut LutLemmas Soft GenericSpec Generic GenericLemmas GenericOps GenericPlanes
  Simd MergeSimdLemmas GenericSimd GenericSimdLanes GenericSimdFloat GenericSimdOps SquareSimd SquareSimdFloat.
Import Soft ListNotations.
Open Scope Z_scope.

(** ** Lists of lanes *)

(** The columns of the two accumulators. *)
Definition loIdx (nb : nat) : list nat := flat_map (fun b => seq (8 * b) 4) (seq 0 nb).
Definition hiIdx (nb : nat) : list nat := flat_map (fun b => seq (8 * b + 4) 4) (seq 0 nb).
Definition goodNb (nb : nat) : Prop := nb = 2%nat \/ nb = 4%nat.

Definition accOf (nb : nat) (u : nat -> Z) : acc := (map u (loIdx nb), map u (hiIdx nb)).

Lemma addTaps_map : forall nb w f g u, goodNb nb ->
  addTaps nb w (map f (seq 0 (8 * nb))) (map g (seq 0 (8 * nb))) (accOf nb u) =
  accOf nb (fun i => Simd.add32 (u i) (madd16 (join16 (f i) (g i)) (wrapu32 w))).
Proof. intros nb w f g u [->| ->]; reflexivity. Qed.
Lemma addTaps_last : forall nb w f u, goodNb nb ->
  addTaps nb w (map f (seq 0 (8 * nb))) (set16 (mkBE nb false) 0) (accOf nb u) =
  accOf nb (fun i => Simd.add32 (u i) (madd16 (join16 (f i) 0) (wrapu32 w))).
Proof. intros nb w f u [->| ->]; reflexivity. Qed.
Lemma zeroAcc_map : forall nb, goodNb nb -> zeroAcc nb = accOf nb (fun _ => wrapu32 0).
Proof. intros nb [->| ->]; reflexivity. Qed.

Lemma outByte_map : forall nb g u, goodNb nb ->
  outByte nb g (accOf nb u) = map (fun i => satu8of16 (sats16of32 (cvtI (scaled g (cvtF (u i)))))) (seq 0 (8 * nb)).
Proof. intros nb g u [->| ->]; reflexivity. Qed.
Lemma outWord_map : forall nb g u, goodNb nb ->
  outWord nb g (accOf nb u) = map (fun i => minu (satu16of32 (cvtI (scaled g (cvtF (u i))))) (wrapu16 (g_maxval g))) (seq 0 (8 * nb)).
Proof. intros nb g u [->| ->]; reflexivity. Qed.
Lemma sub_map : forall nb wb u, goodNb nb ->
  (zip Simd.sub32 (fst (accOf nb u)) (set32 (mkBE nb false) wb), zip Simd.sub32 (snd (accOf nb u)) (set32 (mkBE nb false) wb)) =
  accOf nb (fun i => Simd.sub32 (u i) (wrapu32 wb)).
Proof. intros nb wb u [->| ->]; reflexivity. Qed.

(** The four 64 bit accumulators. *)
Definition acc64Of (nb : nat) (u : nat -> Z) : acc64 :=
  (map u (firstn (2 * nb) (loIdx nb)), map u (skipn (2 * nb) (loIdx nb)), map u (firstn (2 * nb) (hiIdx nb)), map u (skipn (2 * nb) (hiIdx nb))).
Lemma add64_map : forall nb u v, goodNb nb ->
  (let '(la, lb, ha, hb) := acc64Of nb u in let a := accOf nb v in
   (zip addl64 la (widenlo nb (fst a)), zip addl64 lb (widenhi nb (fst a)), zip addl64 ha (widenlo nb (snd a)), zip addl64 hb (widenhi nb (snd a)))) =
  acc64Of nb (fun i => addl64 (u i) (wrapu64 (s32 (v i)))).
Proof. intros nb u v [->| ->]; reflexivity. Qed.
Lemma zero64_map : forall nb, goodNb nb -> (let z := set64 nb 0 in (z, z, z, z)) = acc64Of nb (fun _ => wrapu64 0).
Proof. intros nb [->| ->]; reflexivity. Qed.
Lemma sub64_map : forall nb wb u, goodNb nb ->
  (let '(la, lb, ha, hb) := acc64Of nb u in let w := set64 nb wb in (zip subl64 la w, zip subl64 lb w, zip subl64 ha w, zip subl64 hb w)) =
  acc64Of nb (fun i => subl64 (u i) (wrapu64 wb)).
Proof. intros nb wb u [->| ->]; reflexivity. Qed.
Lemma outWord64_map : forall nb g u, goodNb nb ->
  outWord64 nb g (acc64Of nb u) = map (fun i => minu (satu16of32 (cvtI (scaled g (cvt64 nb (u i))))) (wrapu16 (g_maxval g))) (seq 0 (8 * nb)).
Proof.
  intros nb g u [->| ->]; unfold outWord64, acc64Of; rewrite <- !map_app, !firstn_skipn;
    (generalize (fun i => u i)); intros; set (q := fun v => cvtI (scaled g v)); reflexivity.
Qed.

Lemma zip_map : forall {A B C D E} (f : A -> B -> C) (p : D -> A) (q : E -> B) l1 l2, zip f (map p l1) (map q l2) = zip (fun x y => f (p x) (q y)) l1 l2.
Proof. intros A B C D E f p q. induction l1 as [|x l1 IH]; intros [|y l2]; cbn [zip map]; try reflexivity. f_equal. apply IH. Qed.
Lemma zip_repeat : forall {A C D} (f : A -> D -> C) (l : list A) y, zip f l (repeat y (length l)) = map (fun x => f x y) l.
Proof. intros A C D f. induction l as [|x l IH]; intros y; [reflexivity|]. cbn [length repeat zip map]. f_equal. apply IH. Qed.

(** ** Two taps *)

Lemma pairTaps_inter : forall a b, pairTaps a b = interleave a b.
Proof.
  intros a b. unfold pairTaps, interleave. f_equal. unfold wrapu16, wrapu32. rewrite Zmult_mod_idemp_l. change 4294967296 with (65536 * 65536). symmetry. apply Z.mul_mod_distr_r; lia.
Qed.
Lemma pairTaps_one : forall a, wrapu16 a = interleave a 0.
Proof. intros a. unfold interleave. reflexivity. Qed.
Lemma madd_comm : forall a b, madd16 a b = madd16 b a.
Proof. intros a b. unfold madd16. f_equal. ring. Qed.

(** ** Samples *)

Section Blocks.
Variables (nb : nat) (k n : Z) (g : gparams) (src : plane) (w h : Z).
Hypothesis NB : goodNb nb.
Hypothesis K : smallk k.
Hypothesis N : n = 5 \/ n = 7 \/ n = 9 \/ n = 11.
Hypothesis LEN : zlength (g_matrix g) = n * n.
Hypothesis LM : legalMatrix (g_matrix g).
Hypothesis MV : 0 <= g_maxval g < 256 ^ k.
Hypothesis W : 1 <= w < 2 ^ 30.
Hypothesis H : 1 <= h < 2 ^ 30.
Hypothesis WS : wfPlane k src w h.
Hypothesis BB : byteBuf src.

Let a := imageOf k src w h.
Let s := n / 2.
Let cf (i : Z) : Z := GenericSpec.coef (g_matrix g) i.

(** A sample as the multiplications see it. *)
Definition seen (v : Z) : Z := if k =? 1 then v else v - 32768.
Definition lane (v : Z) : Z := if k =? 1 then v else add16 v (wrapu16 (-32768)).

Lemma at_range : forall x y, 0 <= i_at a x y < 256 ^ k.
Proof. intros x y. apply image_range; [destruct K; lia | exact BB]. Qed.
Lemma s_is : 2 * s + 1 = n /\ 2 <= s <= 5.
Proof. unfold s. destruct N as [->|[->|[->| ->]]]; split; (reflexivity || (vm_compute; split; discriminate)). Qed.
Lemma cf_is : forall i, coef g i = cf i.
Proof. reflexivity. Qed.
Lemma cf_range : forall i, -1023 <= cf i <= 1023.
Proof. intros i. apply coef_legal. exact LM. Qed.
Lemma lane_range : forall x y, 0 <= lane (i_at a x y) < 65536 /\ s16 (lane (i_at a x y)) = seen (i_at a x y) /\ -32768 <= seen (i_at a x y) < 32768.
Proof.
  intros x y. pose proof (at_range x y) as R. unfold lane, seen. destruct K as [E|E]; subst k; cbn [Z.eqb Pos.eqb].
  - change (256 ^ 1) with 256 in R. split; [lia|]. split; [|lia]. unfold s16. destruct (Z.ltb_spec (i_at a x y) 32768); lia.
  - change (256 ^ 2) with 65536 in R. split; [apply wrapu16_range|]. split; [|lia].
    unfold add16, wrapu16. rewrite Zplus_mod_idemp_r. apply (s16_wrap16 (i_at a x y + -32768)). lia.
Qed.

Lemma loadPels_spec : forall row x, 0 <= row < h -> 0 <= x -> x + 8 * Z.of_nat nb <= w ->
  loadPels nb k src row x = Ok (map (fun i => lane (i_at a (x + Z.of_nat i) row)) (seq 0 (8 * nb))).
Proof.
  intros row x R X E. unfold loadPels. assert (K1 : 1 <= k) by (destruct K; lia). destruct WS as (_ & _ & ST & SZ).
  destruct (loadLanes_spec k (8 * nb) (p_buf src) (row * p_stride src + x * k) K1) as (l & -> & L & V).
  - nia.
  - rewrite SZ. assert (Z.of_nat (8 * nb) = 8 * Z.of_nat nb) as -> by lia. assert ((x + 8 * Z.of_nat nb) * k <= w * k) by nia. nia.
  - cbn [obind]. f_equal.
    assert (LE : l = map (fun i => i_at a (x + Z.of_nat i) row) (seq 0 (8 * nb))).
    { apply nthz_ext; [unfold zlength; rewrite map_length, seq_length; unfold zlength in L; lia|].
      intros t T. rewrite V by lia. unfold nthz. destruct (Z.ltb_spec t 0); [lia|]. symmetry.
      rewrite (map_nth_error _ (Z.to_nat t) (seq 0 (8 * nb)) (d := Z.to_nat t)).
      - f_equal. unfold a. cbn [imageOf i_at]. f_equal. lia.
      - rewrite (nth_error_nth' _ 0%nat) by (rewrite seq_length; lia). rewrite seq_nth by lia. reflexivity. }
    unfold lane. destruct (k =? 1); [exact LE|]. rewrite LE. unfold set16. cbn [be_nb].
    replace (8 * nb)%nat with (length (map (fun i => i_at a (x + Z.of_nat i) row) (seq 0 (8 * nb)))) at 2 by (rewrite map_length, seq_length; reflexivity).
    rewrite zip_repeat, map_map. reflexivity.
Qed.

(** ** Sums of one row of taps *)

Definition rowUpTo (row r x u : Z) : Z := sumL (map (fun c => cf (r * n + c) * seen (i_at a (x + c - s) row)) (zseq u)).

Lemma rowUpTo_succ : forall row r x u, 0 <= u -> rowUpTo row r x (u + 1) = rowUpTo row r x u + cf (r * n + u) * seen (i_at a (x + u - s) row).
Proof.
  intros row r x u U. unfold rowUpTo. rewrite zseq_succ, map_app, sumL_app by lia. unfold sumL at 2. cbn [map fold_right]. lia.
Qed.

Lemma wrap_add : forall x y, Simd.add32 (wrapu32 x) (wrapu32 y) = wrapu32 (x + y).
Proof. intros x y. unfold Simd.add32, wrapu32. rewrite Zplus_mod_idemp_l, Zplus_mod_idemp_r. reflexivity. Qed.

Lemma accOf_ext : forall u v, (forall i, u i = v i) -> accOf nb u = accOf nb v.
Proof. intros u v E. unfold accOf. f_equal; apply map_ext; exact E. Qed.

Lemma rowTaps_spec : forall row r j A, 0 <= row < h -> s <= j -> j + 8 * Z.of_nat nb <= w - s ->
  rowTaps nb k n g src row r j (accOf nb (fun i => wrapu32 (A i))) =
  Ok (accOf nb (fun i => wrapu32 (A i + rowUpTo row r (j + Z.of_nat i) n))).
Proof.
  intros row r j A R J E. destruct s_is as (S1 & S2). unfold rowTaps. fold s.
  destruct (forZ_inv (fun t q => q = accOf nb (fun i => wrapu32 (A i + rowUpTo row r (j + Z.of_nat i) (2 * t))))
    (fun t a0 => obind (loadPels nb k src row (j - s + 2 * t)) (fun x0 => obind (loadPels nb k src row (j - s + (2 * t + 1))) (fun x1 =>
       Ok (addTaps nb (pairTaps (coef g (r * n + 2 * t)) (coef g (r * n + 2 * t + 1))) x0 x1 a0)))) s
    (accOf nb (fun i => wrapu32 (A i))) ltac:(lia)) as (q & Fq & Q).
  - apply accOf_ext. intros i. unfold rowUpTo. rewrite zseq_nonpos by lia. cbn [map sumL fold_right]. f_equal. unfold sumL. cbn [fold_right]. lia.
  - intros t q T ->. rewrite loadPels_spec by lia. cbn [obind]. rewrite loadPels_spec by lia. cbn [obind].
    eexists. split; [reflexivity|]. rewrite addTaps_map by exact NB. apply accOf_ext. intros i.
    rewrite madd_comm, pairTaps_inter, (cf_is (r * n + 2 * t)), (cf_is (r * n + 2 * t + 1)).
    pose proof (lane_range (j - s + 2 * t + Z.of_nat i) row) as (L1 & L2 & L3). pose proof (lane_range (j - s + (2 * t + 1) + Z.of_nat i) row) as (M1 & M2 & M3).
    pose proof (cf_range (r * n + 2 * t)). pose proof (cf_range (r * n + 2 * t + 1)).
    rewrite madd_inter by lia. rewrite L2, M2, wrap_add. f_equal.
    replace (2 * (t + 1)) with (2 * t + 1 + 1) by lia. rewrite rowUpTo_succ, rowUpTo_succ by lia.
    replace (j + Z.of_nat i + 2 * t - s) with (j - s + 2 * t + Z.of_nat i) by lia. replace (j + Z.of_nat i + (2 * t + 1) - s) with (j - s + (2 * t + 1) + Z.of_nat i) by lia.
    replace (r * n + (2 * t + 1)) with (r * n + 2 * t + 1) by lia. lia.
  - rewrite Fq. cbn [obind]. rewrite loadPels_spec by lia. cbn [obind]. rewrite Q, addTaps_last by exact NB. f_equal. apply accOf_ext. intros i.
    rewrite madd_comm, pairTaps_one, cf_is.
    pose proof (lane_range (j - s + (n - 1) + Z.of_nat i) row) as (L1 & L2 & L3). pose proof (cf_range (r * n + n - 1)).
    rewrite madd_inter by lia. rewrite L2, wrap_add. change (s16 0) with 0. f_equal.
    assert (RN : forall x, rowUpTo row r x n = rowUpTo row r x (2 * s) + cf (r * n + 2 * s) * seen (i_at a (x + 2 * s - s) row)) by (intros x; rewrite <- rowUpTo_succ by lia; f_equal; lia). rewrite RN.
    replace (j + Z.of_nat i + 2 * s - s) with (j - s + (n - 1) + Z.of_nat i) by lia. replace (r * n + 2 * s) with (r * n + n - 1) by lia. lia.
Qed.

(** ** Sums of all rows *)

Definition allUpTo (i x u : Z) : Z := sumL (map (fun r => rowUpTo (mirrored h (i + r - s)) r x n) (zseq u)).
Lemma allUpTo_succ : forall i x u, 0 <= u -> allUpTo i x (u + 1) = allUpTo i x u + rowUpTo (mirrored h (i + u - s)) u x n.
Proof. intros i x u U. unfold allUpTo. rewrite zseq_succ, map_app, sumL_app by lia. unfold sumL at 2. cbn [map fold_right]. lia. Qed.
Lemma allUpTo_0 : forall i x, allUpTo i x 0 = 0.
Proof. reflexivity. Qed.

Lemma sums32_spec : forall i j, 0 <= i < h -> s <= j -> j + 8 * Z.of_nat nb <= w - s ->
  sums32 nb k n g src h i j = Ok (accOf nb (fun t => wrapu32 (allUpTo i (j + Z.of_nat t) n))).
Proof.
  intros i j I J E. destruct s_is as (S1 & S2). unfold sums32, overRows. fold s.
  destruct (forZ_inv (fun r q => q = accOf nb (fun t => wrapu32 (allUpTo i (j + Z.of_nat t) r)))
    (fun r q => obind (sqMirror (i + r - s) h) (fun row => rowTaps nb k n g src row r j q)) n (zeroAcc nb) ltac:(lia)) as (q & Fq & Q).
  - rewrite zeroAcc_map by exact NB. reflexivity.
  - intros r q R ->. unfold sqMirror. rewrite mirrorIndex_spec by lia. cbn [obind]. rewrite rowTaps_spec by (try lia; apply mirrored_in; lia).
    eexists. split; [reflexivity|]. apply accOf_ext. intros t. rewrite allUpTo_succ by lia. reflexivity.
  - rewrite Fq, Q. reflexivity.
Qed.

Definition SB : Z := if k =? 1 then 255 else 32768.
Lemma seen_bound : forall x y, Z.abs (seen (i_at a x y)) <= SB /\ 255 <= SB <= 32768.
Proof.
  intros x y. pose proof (at_range x y) as R. pose proof (lane_range x y) as (_ & _ & L). unfold seen, SB in *. destruct K as [E|E]; subst k; cbn [Z.eqb Pos.eqb] in *.
  - change (256 ^ 1) with 256 in R. lia.
  - lia.
Qed.
Lemma rowUpTo_bound : forall row r x u, 0 <= u <= 11 -> Z.abs (rowUpTo row r x u) <= u * (1023 * SB).
Proof.
  intros row r x u U. assert (P : 0 <= u) by lia. revert U. pattern u. apply natlike_ind; [| | exact P].
  - intros _. unfold rowUpTo. reflexivity.
  - intros v V IH U. unfold Z.succ. rewrite rowUpTo_succ by exact V. specialize (IH ltac:(lia)).
    pose proof (cf_range (r * n + v)) as C. pose proof (seen_bound (x + v - s) row) as (L & _).
    assert (Z.abs (cf (r * n + v) * seen (i_at a (x + v - s) row)) <= 1023 * SB) by (rewrite Z.abs_mul; apply Z.mul_le_mono_nonneg; lia). lia.
Qed.
Lemma allUpTo_bound : forall i x u, 0 <= u <= 11 -> Z.abs (allUpTo i x u) <= u * (n * (1023 * SB)).
Proof.
  intros i x u U. assert (P : 0 <= u) by lia. revert U. pattern u. apply natlike_ind; [| | exact P].
  - intros _. unfold allUpTo. reflexivity.
  - intros v V IH U. unfold Z.succ. rewrite allUpTo_succ by exact V. specialize (IH ltac:(lia)).
    pose proof (rowUpTo_bound (mirrored h (i + v - s)) v x n ltac:(lia)). lia.
Qed.

Lemma wrap_add64 : forall x y, addl64 (wrapu64 x) (wrapu64 y) = wrapu64 (x + y).
Proof. intros x y. unfold addl64, wrapu64. rewrite Zplus_mod_idemp_l, Zplus_mod_idemp_r. reflexivity. Qed.
Lemma acc64Of_ext : forall u v, (forall i, u i = v i) -> acc64Of nb u = acc64Of nb v.
Proof. intros u v E. unfold acc64Of. f_equal; [f_equal; [f_equal|]|]; apply map_ext; exact E. Qed.

Lemma sums64_spec : forall i j, 0 <= i < h -> s <= j -> j + 8 * Z.of_nat nb <= w - s ->
  sums64 nb k n g src h i j = Ok (acc64Of nb (fun t => wrapu64 (allUpTo i (j + Z.of_nat t) n))).
Proof.
  intros i j I J E. destruct s_is as (S1 & S2). unfold sums64, overRows. fold s.
  destruct (forZ_inv (fun r q => q = acc64Of nb (fun t => wrapu64 (allUpTo i (j + Z.of_nat t) r)))
    (fun r (q : acc64) => obind (sqMirror (i + r - s) h) (fun row => obind (rowTaps nb k n g src row r j (zeroAcc nb)) (fun a0 =>
       let '(la, lb, ha, hb) := q in Ok (zip addl64 la (widenlo nb (fst a0)), zip addl64 lb (widenhi nb (fst a0)), zip addl64 ha (widenlo nb (snd a0)), zip addl64 hb (widenhi nb (snd a0))))))
    n (let z := set64 nb 0 in (z, z, z, z)) ltac:(lia)) as (q & Fq & Q).
  - rewrite zero64_map by exact NB. reflexivity.
  - intros r q R ->. unfold sqMirror. rewrite mirrorIndex_spec by lia. cbn [obind]. rewrite zeroAcc_map by exact NB. rewrite (rowTaps_spec _ r j (fun _ => 0)) by (try lia; apply mirrored_in; lia).
    cbn [obind]. set (v := fun t : nat => wrapu32 (0 + rowUpTo (mirrored h (i + r - s)) r (j + Z.of_nat t) n)).
    pose proof (add64_map nb (fun t => wrapu64 (allUpTo i (j + Z.of_nat t) r)) v NB) as AM.
    eexists. split; [unfold acc64Of; reflexivity|]. etransitivity; [exact AM|]. apply acc64Of_ext. intros t. unfold v. rewrite allUpTo_succ by lia.
    pose proof (rowUpTo_bound (mirrored h (i + r - s)) r (j + Z.of_nat t) n ltac:(lia)). pose proof (seen_bound 0 0) as (_ & SBR). assert (n * (1023 * SB) <= 11 * (1023 * 32768)) by (apply Z.mul_le_mono_nonneg; lia). rewrite s32_wrap32 by lia. rewrite wrap_add64. reflexivity.
  - cbv zeta in Fq |- *. etransitivity; [exact Fq|]. rewrite Q. reflexivity.
Qed.

(** ** The bias of the words *)

Definition matrixSum : Z := sumL (map cf (zseq (n * n))).
Lemma wbSum_spec : forall wide : bool, (if wide then True else n <= 7) -> wbSum wide n g = Ok (-32768 * matrixSum).
Proof.
  intros wide WD. unfold wbSum, matrixSum.
  assert (N2 : 0 <= n * n <= 121) by (destruct N as [->|[->|[->| ->]]]; lia).
  assert (BND : forall u, 0 <= u -> Z.abs (sumL (map cf (zseq u))) <= u * 1023).
  { intros u U. pattern u. apply natlike_ind; [reflexivity | | exact U]. intros v V IH. unfold Z.succ. rewrite zseq_succ, map_app, sumL_app by exact V.
    unfold sumL at 2. cbn [map fold_right]. pose proof (cf_range v). lia. }
  destruct (forZ_inv (fun u wb => wb = -32768 * sumL (map cf (zseq u))) (fun i wb => (if wide then chk64 else chk32) (wb + -32768 * coef g i)) (n * n) 0 ltac:(lia)) as (q & Fq & Q).
  - reflexivity.
  - intros u q U ->. rewrite zseq_succ, map_app, sumL_app by lia. change (sumL (map cf [u])) with (cf u + 0). rewrite cf_is.
    pose proof (BND u ltac:(lia)). pose proof (cf_range u). exists (-32768 * (sumL (map cf (zseq u)) + (cf u + 0))). split; [|reflexivity].
    assert (B2 : u * 1023 <= 120 * 1023) by lia.
    destruct wide.
    + unfold chk64. replace (in_int64b _) with true; [f_equal; lia|]. symmetry. apply in_int64b_spec. unfold in_int64, INT64_MIN, INT64_MAX. lia.
    + assert (N49 : n * n <= 49) by (destruct N as [Q|[Q|[Q|Q]]]; subst n; lia).
      assert (B3 : u * 1023 <= 48 * 1023) by lia.
      unfold chk32. replace (in_intb _) with true; [f_equal; lia|]. symmetry. apply in_intb_spec. unfold in_int, INT_MIN, INT_MAX. lia.
  - rewrite Fq, Q. reflexivity.
Qed.

Lemma matrixSum_bound : Z.abs matrixSum <= 121 * 1023.
Proof.
  unfold matrixSum. assert (N2 : 0 <= n * n <= 121) by (destruct N as [->|[->|[->| ->]]]; lia).
  enough (BND : forall u, 0 <= u -> Z.abs (sumL (map cf (zseq u))) <= u * 1023) by (specialize (BND (n * n)); lia).
  intros u U. pattern u. apply natlike_ind; [reflexivity | | exact U]. intros v V IH. unfold Z.succ. rewrite zseq_succ, map_app, sumL_app by exact V.
  unfold sumL at 2. cbn [map fold_right]. pose proof (cf_range v). lia.
Qed.

(** Inside, the sum of the taps is the weighted sum of the picture. *)
Lemma zseq_square : forall m u, 0 <= m -> 0 <= u -> sumL (map cf (zseq (u * m))) = sumL (map (fun r => sumL (map (fun c => cf (r * m + c)) (zseq m))) (zseq u)).
Proof.
  intros m u M U. pattern u. apply natlike_ind; [reflexivity | | exact U]. intros v V IH. unfold Z.succ.
  rewrite (zseq_succ v), map_app, sumL_app by exact V. rewrite Z.mul_add_distr_r, Z.mul_1_l, zseq_app, map_app, sumL_app by nia.
  rewrite IH. f_equal. rewrite map_map. change (sumL (map (fun r => sumL (map (fun c => cf (r * m + c)) (zseq m))) [v])) with (sumL (map (fun c => cf (v * m + c)) (zseq m)) + 0). lia.
Qed.
Lemma sumL_map_mul : forall (f : Z -> Z) q l, sumL (map (fun x => f x * q) l) = sumL (map f l) * q.
Proof. intros f q. induction l as [|x l IH]; [reflexivity|]. unfold sumL in *. cbn [map fold_right]. rewrite IH. ring. Qed.

Lemma allUpTo_square : forall i x, 0 <= i < h -> s <= x < w - s -> allUpTo i x n = square n (g_matrix g) a x i - (if k =? 1 then 0 else 32768) * matrixSum.
Proof.
  intros i x I X. destruct s_is as (S1 & S2). unfold allUpTo, rowUpTo, square, matrixSum. rewrite (zseq_square n n) by lia. change (i_w a) with w. change (i_h a) with h. fold s.
  set (b := if k =? 1 then 0 else 32768).
  assert (SE : forall v, seen v = v - b) by (intros v; unfold seen, b; destruct (k =? 1); lia).
  assert (LS : forall (f u v : Z -> Z) l, (forall c, In c l -> f c = u c - b * v c) -> sumL (map f l) = sumL (map u l) - b * sumL (map v l)).
  { intros f u v. induction l as [|c l IH]; intros F; [unfold sumL; cbn [map fold_right]; ring|]. unfold sumL in *. cbn [map fold_right].
    rewrite (F c) by (left; reflexivity). rewrite IH by (intros; apply F; right; assumption). ring. }
  apply LS. intros r R. apply In_zseq in R. apply LS. intros c C. apply In_zseq in C. rewrite SE. rewrite (mirrored_id w) by lia. unfold cf. ring.
Qed.

(** ** One block *)

(** What the vector code makes of a sum. *)
Definition vfinish (v : Z) : Z :=
  if k =? 1 then satu8of16 (sats16of32 (cvtI (scaled g (of32 v 0))))
  else minu (satu16of32 (cvtI (scaled g (of32 (if n <=? 7 then s32 (wrapu32 v) else v) 0)))) (g_maxval g).

Lemma block_spec : forall i j, 0 <= i < h -> s <= j -> j + 8 * Z.of_nat nb <= w - s ->
  block nb k n g src h i j = Ok (map (fun t => vfinish (square n (g_matrix g) a (j + Z.of_nat t) i)) (seq 0 (8 * nb))).
Proof.
  intros i j I J E. destruct s_is as (S1 & S2).
  assert (SQ : forall t, In t (seq 0 (8 * nb)) -> allUpTo i (j + Z.of_nat t) n = square n (g_matrix g) a (j + Z.of_nat t) i - (if k =? 1 then 0 else 32768) * matrixSum).
  { intros t T. apply in_seq in T. apply allUpTo_square; [exact I | lia]. }
  pose proof (allUpTo_bound i) as AB. unfold block, vfinish.
  destruct (Z.eqb_spec k 1) as [K1|K1].
  - rewrite sums32_spec by assumption. cbn [obind]. rewrite outByte_map by exact NB. f_equal. apply map_ext_in. intros t T. do 3 f_equal. unfold cvtF.
    specialize (AB (j + Z.of_nat t) n ltac:(lia)). unfold SB in AB.  rewrite (proj2 (Z.eqb_eq k 1) K1) in AB.
    assert (NN : n * (n * (1023 * 255)) <= 121 * (1023 * 255)) by (destruct N as [Q|[Q|[Q|Q]]]; rewrite Q; lia).
    rewrite s32_wrap32 by lia. rewrite (SQ t T). do 2 f_equal. lia.
  - assert (MW : wrapu16 (g_maxval g) = g_maxval g) by (unfold wrapu16; apply Z.mod_small; assert (K2 : k = 2) by (destruct K; lia); rewrite K2 in MV; exact MV).
    destruct (Z.leb_spec n 7).
    + rewrite (wbSum_spec false) by lia. cbn [obind]. rewrite sums32_spec by assumption. cbn [obind]. cbv zeta. rewrite sub_map by exact NB. rewrite outWord_map by exact NB.
      f_equal. apply map_ext_in. intros t T. rewrite (SQ t T), MW. unfold cvtF. do 7 f_equal. unfold Simd.sub32, wrapu32. rewrite Zminus_mod_idemp_l, Zminus_mod_idemp_r. f_equal. lia.
    + rewrite (wbSum_spec true) by exact Logic.I. cbn [obind]. rewrite sums64_spec by assumption. cbn [obind]. cbv zeta.
      pose proof (sub64_map nb (-32768 * matrixSum) (fun t => wrapu64 (allUpTo i (j + Z.of_nat t) n)) NB) as SM. cbv zeta in SM.
      unfold acc64Of at 1 in SM. unfold acc64Of at 1. cbv iota beta in SM |- *. rewrite SM, outWord64_map by exact NB.
      f_equal. apply map_ext_in. intros t T. specialize (AB (j + Z.of_nat t) n ltac:(lia)). unfold SB in AB.  rewrite (proj2 (Z.eqb_neq k 1) K1) in AB.
      assert (NN : n * (n * (1023 * 32768)) <= 121 * (1023 * 32768)) by (destruct N as [Q|[Q|[Q|Q]]]; rewrite Q; lia).
      pose proof matrixSum_bound as MB. rewrite (SQ t T) in AB |- *.
      replace (subl64 _ _) with (wrapu64 (square n (g_matrix g) a (j + Z.of_nat t) i)).
      * rewrite cvt64_spec by lia. rewrite MW. reflexivity.
      * unfold subl64, wrapu64. rewrite Zminus_mod_idemp_l, Zminus_mod_idemp_r. f_equal. lia.
Qed.
End Blocks.
