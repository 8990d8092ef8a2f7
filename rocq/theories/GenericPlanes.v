(** The 3x3 and convolution kernels on whole planes. *)
From Coq Require Import ZArith List Lia Bool.
From Coq Require Import SpecFloat.
From Verif Require Import Common FormatSpec Format Frame ImageSpec PlaneMem Spatial PixelSpec Pixel PixelLemmas Lut LutLemmas.
From Verif Require Import Soft SoftLemmas SoftBounds GenericSpec Generic GenericLemmas GenericMedian GenericOps.
Import ListNotations.
Open Scope Z_scope.

Definition byteBuf (p : plane) : Prop := forall a, 0 <= b_data (p_buf p) a < 256.

Lemma sampleAt_spec : forall k p w h x y, 1 <= k -> wfPlane k p w h -> 0 <= x < w -> 0 <= y < h ->
  sampleAt k p x y = Ok (i_at (imageOf k p w h) x y).
Proof. intros. unfold sampleAt. apply loadS_at; assumption. Qed.

(** ** 3x3 *)

Lemma nine_spec : forall k p w h r0 r1 r2 a b c, 1 <= k -> wfPlane k p w h ->
  0 <= r0 < h -> 0 <= r1 < h -> 0 <= r2 < h -> 0 <= a < w -> 0 <= b < w -> 0 <= c < w ->
  nine k p r0 r1 r2 a b c =
  Ok (map (fun q => i_at (imageOf k p w h) (fst q) (snd q))
        [(a, r0); (b, r0); (c, r0); (a, r1); (b, r1); (c, r1); (a, r2); (b, r2); (c, r2)]).
Proof.
  intros. unfold nine. apply mapO_spec. intros q I. apply sampleAt_spec; auto;
    cbn [In] in I; repeat (destruct I as [<-|I]; [cbn [fst snd]; assumption|]); contradiction.
Qed.

Lemma around_length : forall a x y, zlength (around a x y) = 9.
Proof. intros. unfold around. rewrite zlength_map. reflexivity. Qed.
Lemma around_samples : forall k p w h x y, 0 <= k -> byteBuf p -> samples k (around (imageOf k p w h) x y).
Proof.
  intros k p w h x y K B. unfold samples, around. rewrite Forall_map, Forall_forall. intros d _. apply image_range; assumption.
Qed.

Lemma segs3x3_columns : forall k maxval op src w h i, 1 <= w < 2 ^ 32 -> columns (segs3x3 k maxval op src w h i) = zseq w.
Proof.
  intros k maxval op src w h i W. unfold segs3x3. rewrite (wrapu32_id (w - 1)) by lia.
  destruct (Z.ltb_spec 1 w).
  - cbn [app columns flat_map fst snd]. rewrite app_nil_r, range_app, range_app by lia. apply range_0.
  - cbn [app columns flat_map fst snd]. rewrite (range_nil 1), !app_nil_r by lia. replace w with 1 by lia. apply range_0.
Qed.

Lemma columns_covered : forall segs w, columns segs = zseq w -> forall x, 0 <= x < w -> covered segs x.
Proof.
  intros segs w E x X. assert (I : In x (columns segs)) by (rewrite E; apply In_zseq; exact X).
  unfold columns in I. apply in_flat_map in I. destruct I as (s & S & I). apply Exists_exists. exists s. split; [exact S|].
  unfold range in I. apply in_map_iff in I. destruct I as (t & <- & T). apply In_zseq in T. lia.
Qed.

Lemma filter3x3_spec : forall k maxval op F src w h dst, smallk k -> 0 <= maxval < 256 ^ k -> 1 <= w < 2 ^ 31 -> 1 <= h < 2 ^ 31 ->
  wfPlane k src w h -> wfPlane k dst w h -> byteBuf src ->
  (forall l, zlength l = 9 -> samples k l -> op l = Ok (F l) /\ 0 <= F l < 256 ^ k) ->
  exists m, filter3x3 k maxval op src w h dst = Ok m /\ b_size m = b_size (p_buf dst) /\
    same (imageOf k (mkPl (p_stride dst) m) w h) (local (fun l => Z.min (F l) maxval) (imageOf k src w h)).
Proof.
  intros k maxval op F src w h dst K M W H WS WD B OP. assert (K1 : 1 <= k) by (destruct K; lia).
  set (a := imageOf k src w h).
  assert (V : forall x y, 0 <= F (around a x y) < 256 ^ k) by (intros; apply OP; [apply around_length | apply around_samples; [lia | exact B]]).
  unfold filter3x3, local. change (i_w a) with w. change (i_h a) with h. apply paintRows_spec; [exact K1 | exact WD | | ].
  - intros y Y. split; [|apply columns_covered; apply segs3x3_columns; lia].
    set (R0 := if y =? 0 then 0 else y - 1).
    set (R2 := if y =? wrapu32 (h - 1) then wrapu32 (h - 1) else y + 1).
    assert (E0 : R0 = edge h (y + -1)) by (subst R0; unfold edge; destruct (Z.eqb_spec y 0); lia).
    assert (E2 : R2 = edge h (y + 1)) by (subst R2; unfold edge; rewrite wrapu32_id by lia; destruct (Z.eqb_spec y (h - 1)); lia).
    assert (E1 : y = edge h (y + 0)) by (unfold edge; lia).
    assert (PX : forall x ca cb cc, 0 <= x < w -> ca = edge w (x + -1) -> cb = edge w (x + 0) -> cc = edge w (x + 1) ->
       obind (nine k src R0 y R2 ca cb cc) (fun l => obind (op l) (fun v => Ok (limitS k maxval v))) = Ok (Z.min (F (around a x y)) maxval)).
    { intros x ca cb cc X -> -> ->. rewrite (nine_spec k src w h) by (first [exact WS | exact Y | lia | rewrite ?E0, ?E2; apply edge_in; lia]).
      assert (AE : map (fun q => i_at (imageOf k src w h) (fst q) (snd q))
         [(edge w (x + -1), R0); (edge w (x + 0), R0); (edge w (x + 1), R0); (edge w (x + -1), y); (edge w (x + 0), y);
          (edge w (x + 1), y); (edge w (x + -1), R2); (edge w (x + 0), R2); (edge w (x + 1), R2)] = around a x y).
      { unfold around, offsets. fold a. cbn [map fst snd]. change (i_w a) with w. change (i_h a) with h. rewrite <- E0, <- E2, <- E1. reflexivity. }
      rewrite AE. unfold obind. destruct (OP (around a x y) (around_length _ _ _) (around_samples k src w h x y ltac:(lia) B)) as (-> & _).
      rewrite limitS_spec by auto. reflexivity. }
    unfold segs3x3. fold R0 R2. rewrite (wrapu32_id (w - 1)) by lia.
    apply Forall_app. split; [apply Forall_cons; [|apply Forall_cons; [|apply Forall_nil]]|].
    + split; [lia|]. split; [lia|]. intros x X. apply PX; unfold edge; try lia. destruct (Z.ltb_spec 1 w); lia.
    + split; [lia|]. split; [lia|]. intros x X. apply PX; unfold edge; lia.
    + destruct (Z.ltb_spec 1 w); [|apply Forall_nil]. apply Forall_cons; [|apply Forall_nil].
      split; [lia|]. split; [lia|]. intros x X. apply PX; unfold edge; lia.
  - intros x y _ _. change (0 <= Z.min (F (around a x y)) maxval < 256 ^ k). specialize (V x y). lia.
Qed.

(** ** Weighted sums *)

Lemma sumL_zero : forall A (l : list A), sumL (map (fun _ => 0) l) = 0.
Proof. induction l as [|x l IH]; [reflexivity|]. unfold sumL in *. cbn [map fold_right]. rewrite IH. reflexivity. Qed.
Lemma sumL_add : forall A (f g : A -> Z) l, sumL (map (fun x => f x + g x) l) = sumL (map f l) + sumL (map g l).
Proof. induction l as [|x l IH]; [reflexivity|]. unfold sumL in *. cbn [map fold_right]. rewrite IH. ring. Qed.
Lemma sumL_swap : forall A B (f : A -> B -> Z) la lb,
  sumL (map (fun x => sumL (map (fun y => f x y) lb)) la) = sumL (map (fun y => sumL (map (fun x => f x y) la)) lb).
Proof.
  intros A B f. induction la as [|x la IH]; intros lb.
  - change (sumL (map (fun x => sumL (map (fun y => f x y) lb)) [])) with 0. symmetry. apply (sumL_zero B lb).
  - transitivity (sumL (map (fun y => f x y) lb) + sumL (map (fun x => sumL (map (fun y => f x y) lb)) la)); [reflexivity|].
    rewrite IH, <- sumL_add. reflexivity.
Qed.
Lemma sumL_flat : forall A (f : A -> list Z) l, sumL (flat_map f l) = sumL (map (fun x => sumL (f x)) l).
Proof.
  intros A f. induction l as [|x l IH]; [reflexivity|]. cbn [flat_map]. rewrite sumL_app, IH. reflexivity.
Qed.

Lemma taps_sum : forall n (v : Z -> Z -> Z), sumL (map (fun t => let '(c, r) := t in v c r) (tapsOf n)) =
  sumL (map (fun r => sumL (map (fun c => v c r) (zseq n))) (zseq n)).
Proof.
  intros n v. unfold tapsOf. rewrite <- (sumL_swap Z Z v (zseq n) (zseq n)). rewrite <- sumL_flat.
  f_equal.
  assert (G : forall l2 l1 : list Z, map (fun t => let '(c, r) := t in v c r) (flat_map (fun c => map (fun r => (c, r)) l2) l1) =
    flat_map (fun c => map (fun r => v c r) l2) l1).
  { intros l2. induction l1 as [|c l1 IH]; [reflexivity|]. cbn [flat_map]. rewrite map_app, IH, map_map. reflexivity. }
  apply G.
Qed.

Lemma taps_in : forall n c r, In (c, r) (tapsOf n) <-> 0 <= c < n /\ 0 <= r < n.
Proof.
  intros n c r. unfold tapsOf. rewrite in_flat_map. split.
  - intros (c' & C & I). apply in_map_iff in I. destruct I as (r' & Q & R). injection Q as <- <-. rewrite In_zseq in *. auto.
  - intros (C & R). exists c. split; [apply In_zseq; exact C|]. apply in_map_iff. exists r. split; [reflexivity | apply In_zseq; exact R].
Qed.
Lemma taps_length : forall n, 0 <= n -> zlength (tapsOf n) = n * n.
Proof.
  assert (G : forall l2 l1 : list Z, zlength (flat_map (fun c => map (fun r => (c, r)) l2) l1) = zlength l1 * zlength l2).
  { intros l2. induction l1 as [|c l1 IH]; [reflexivity|]. cbn [flat_map]. unfold zlength in *. rewrite app_length, map_length. cbn [length]. lia. }
  intros n N. unfold tapsOf. rewrite G, zlength_zseq. replace (Z.max 0 n) with n by lia. reflexivity.
Qed.

Definition legalMatrix (m : list Z) : Prop := Forall (fun c => -1023 <= c <= 1023) m.

Lemma coef_nthz : forall m i, 0 <= i < zlength m -> nthz m i = Some (coef m i).
Proof.
  intros m i I. unfold nthz, coef. destruct (Z.ltb_spec i 0); [lia|]. apply nth_error_nth'. unfold zlength in I. lia.
Qed.
Lemma coef_legal : forall m i, legalMatrix m -> -1023 <= coef m i <= 1023.
Proof.
  intros m i L. unfold coef. destruct (nth_in_or_default (Z.to_nat i) m 0) as [I|E]; [|rewrite E; lia].
  unfold legalMatrix in L. rewrite Forall_forall in L. apply L. exact I.
Qed.

(** [F] finishes every sum below 2^40. *)
Definition finishes (k : Z) (g : gparams) (F : Z -> Z) : Prop :=
  forall a, Z.abs a < 2 ^ 40 -> finish k g a = Ok (F a) /\ 0 <= F a < 256 ^ k.

Lemma dot_cells : forall (wide : bool) M k l, 0 <= M -> smallk k -> M < 256 ^ k -> cells M l -> zlength l <= 121 ->
  (if wide then True else k = 1 \/ zlength l <= 25) ->
  dot wide l = Ok (sumL (map (fun cv : Z * Z => fst cv * snd cv) l)) /\ Z.abs (sumL (map (fun cv : Z * Z => fst cv * snd cv) l)) < 2 ^ 40.
Proof.
  intros wide M k l M0 K MK C L WD. pose proof (smallk_pow k K) as PK. split.
  - apply (dot_spec wide M); [exact M0 | exact C |]. assert (L0 := zlength_nonneg _ l). destruct wide.
    + apply Z.le_lt_trans with (121 * (1023 * 65536)); [|reflexivity]. nia.
    + destruct WD as [->|WD].
      * change (256 ^ 1) with 256 in *. apply Z.le_lt_trans with (121 * (1023 * 255)); [|reflexivity]. nia.
      * apply Z.le_lt_trans with (25 * (1023 * 65535)); [|reflexivity]. nia.
  - assert (B : Z.abs (sumL (map (fun cv : Z * Z => fst cv * snd cv) l)) <= zlength l * (1023 * M)).
    { clear L WD. induction l as [|(c & v) l IH]; [reflexivity|]. inversion C as [|q r C1 C2]; subst. specialize (IH C2). cbn [fst snd] in C1.
      unfold sumL in *. cbn [map fold_right fst snd]. rewrite zlength_cons.
      assert (Z.abs (c * v) <= 1023 * M) by (rewrite Z.abs_mul; apply Z.mul_le_mono_nonneg; lia). lia. }
    apply Z.le_lt_trans with (121 * (1023 * 65536)); [|reflexivity]. assert (L0 := zlength_nonneg _ l). nia.
Qed.

(** ** Square kernels *)

Lemma segsSquare_columns : forall k n g src w h i, 1 <= n -> 0 <= w -> columns (segsSquare k n g src w h i) = zseq w.
Proof.
  intros k n g src w h i N W. unfold segsSquare. set (s := n / 2). assert (S : 0 <= s) by (apply Z.div_pos; lia).
  clearbody s.
  assert (C1 : range 0 (Z.min w s) ++ range s (w - s) ++ range (Z.max s (w - Z.min w s)) w = zseq w).
  { destruct (Z.le_gt_cases w s).
    - rewrite (range_nil s), (range_nil (Z.max _ _)), !app_nil_r by lia. replace (Z.min w s) with w by lia. apply range_0.
    - replace (Z.min w s) with s by lia. destruct (Z.le_gt_cases (w - s) s).
      + rewrite (range_nil s) by lia. cbn [app]. replace (Z.max s (w - s)) with s by lia. rewrite range_app by lia. apply range_0.
      + replace (Z.max s (w - s)) with (w - s) by lia. rewrite range_app, range_app by lia. apply range_0. }
  destruct (Z.leb_spec n 7).
  - cbn [app columns flat_map fst snd]. rewrite app_nil_r. exact C1.
  - destruct (Z.ltb_spec (2 * s) w).
    + cbn [app columns flat_map fst snd]. rewrite app_nil_r. rewrite <- C1. f_equal.
      set (b := s + 16 * ((w - s - s) / 16)).
      assert (s <= b <= w - s).
      { unfold b. pose proof (Z.div_mod (w - s - s) 16 ltac:(lia)). pose proof (Z.mod_pos_bound (w - s - s) 16 ltac:(lia)). pose proof (Z.div_pos (w - s - s) 16 ltac:(lia)). lia. }
      rewrite app_assoc, (range_app s b) by lia. reflexivity.
    + cbn [app columns flat_map fst snd]. rewrite app_nil_r. rewrite <- C1, (range_nil s) by lia. reflexivity.
Qed.

Lemma convSquare_spec : forall k n g F src w h dst, smallk k -> n = 5 \/ n = 7 \/ n = 9 \/ n = 11 -> zlength (g_matrix g) = n * n ->
  legalMatrix (g_matrix g) -> 0 <= g_maxval g < 256 ^ k -> finishes k g F -> 1 <= w < 2 ^ 30 -> 1 <= h < 2 ^ 30 ->
  wfPlane k src w h -> wfPlane k dst w h -> byteBuf src ->
  exists m, convSquare k n g src w h dst = Ok m /\ b_size m = b_size (p_buf dst) /\
    same (imageOf k (mkPl (p_stride dst) m) w h)
         (weighed (fun s => Z.min (F s) (g_maxval g)) (square n (g_matrix g)) (imageOf k src w h)).
Proof.
  intros k n g F src w h dst K N L LM M FN W H WS WD B. assert (K1 : 1 <= k) by (destruct K; lia).
  pose proof (smallk_pow k K) as PK. set (a := imageOf k src w h).
  assert (AB : forall x y, 0 <= i_at a x y <= 256 ^ k - 1) by (intros x y; pose proof (image_range k src w h x y ltac:(lia) B) as IR; fold a in IR; lia).
  set (s := n / 2). assert (S : 2 * s + 1 = n) by (subst s; destruct N as [->|[->|[->| ->]]]; reflexivity).
  unfold convSquare, weighed. change (i_w a) with w. change (i_h a) with h.
  set (wide := (1 <? k) && (5 <? n)).
  (* one pixel *)
  assert (PX : forall x y col, 0 <= x < w -> 0 <= y < h -> (forall c, 0 <= c < n -> col c = Ok (mirrored w (x + c - s))) ->
    obind (mapO (fun t => let '(c, r) := t in
             obind (mirrorIndex (y + r - s) h) (fun row =>
             obind (col c) (fun cl =>
             obind (sampleAt k src cl row) (fun v =>
             match nthz (g_matrix g) (r * n + c) with Some q => Ok (q, v) | None => UB end)))) (tapsOf n)) (fun l =>
    obind (dot wide l) (fun a => obind (finish k g a) (fun x => Ok (limitS k (g_maxval g) x)))) =
    Ok (Z.min (F (square n (g_matrix g) a x y)) (g_maxval g)) /\ 0 <= F (square n (g_matrix g) a x y) < 256 ^ k).
  { intros x y col X Y COL.
    rewrite (mapO_spec _ (fun t => let '(c, r) := t in (coef (g_matrix g) (r * n + c), i_at a (mirrored w (x + c - s)) (mirrored h (y + r - s))))).
    2:{ intros (c & r) I. apply taps_in in I. rewrite mirrorIndex_spec by lia. unfold obind. rewrite COL by lia.
        rewrite (sampleAt_spec k src w h) by (auto; apply mirrored_in; lia). rewrite coef_nthz by nia. reflexivity. }
    set (l := map _ (tapsOf n)).
    assert (C : cells (256 ^ k - 1) l).
    { unfold cells, l. rewrite Forall_map, Forall_forall. intros (c & r) _. cbn [fst snd]. split; [apply coef_legal; exact LM | apply AB]. }
    assert (LL : zlength l = n * n) by (unfold l; rewrite zlength_map, taps_length by lia; reflexivity).
    assert (E : sumL (map (fun cv : Z * Z => fst cv * snd cv) l) = square n (g_matrix g) a x y).
    { unfold l. rewrite map_map. unfold square. change (i_w a) with w. change (i_h a) with h. fold s.
      rewrite <- (taps_sum n (fun c r => coef (g_matrix g) (r * n + c) * i_at a (mirrored w (x + c - s)) (mirrored h (y + r - s)))).
      f_equal. apply map_ext. intros (c & r). reflexivity. }
    destruct (dot_cells wide (256 ^ k - 1) k l ltac:(lia) K ltac:(lia) C) as (D1 & D2).
    { rewrite LL. nia. }
    { unfold wide. rewrite LL. destruct K as [->| ->]; [left; reflexivity|]. destruct N as [->|[->|[->| ->]]]; try exact I. right. lia. }
    unfold obind. rewrite D1, E. rewrite E in D2. destruct (FN _ D2) as (-> & R). rewrite limitS_spec by auto. split; [reflexivity | exact R]. }
  apply paintRows_spec; [exact K1 | exact WD | | ].
  - intros y Y. split; [|apply columns_covered; apply segsSquare_columns; lia].
    assert (ED : forall lo hi, 0 <= lo -> hi <= w -> forall x, lo <= x < hi -> (fun j => obind (mapO (fun t => let '(c, r) := t in
             obind (mirrorIndex (y + r - s) h) (fun row =>
             obind (mirrorIndex (j + c - s) w) (fun cl =>
             obind (sampleAt k src cl row) (fun v =>
             match nthz (g_matrix g) (r * n + c) with Some q => Ok (q, v) | None => UB end)))) (tapsOf n)) (fun l =>
             obind (dot wide l) (fun a => obind (finish k g a) (fun x => Ok (limitS k (g_maxval g) x))))) x =
         Ok (Z.min (F (square n (g_matrix g) a x y)) (g_maxval g))).
    { intros lo hi LO HI x X. cbv beta. apply (PX x y (fun c => mirrorIndex (x + c - s) w)); [lia | lia |].
      intros c Cc. apply mirrorIndex_spec; lia. }
    assert (IN : forall lo hi, s <= lo -> hi <= w - s -> forall x, lo <= x < hi -> (fun j => obind (mapO (fun t => let '(c, r) := t in
             obind (mirrorIndex (y + r - s) h) (fun row =>
             obind (Ok (j - s + c)) (fun cl =>
             obind (sampleAt k src cl row) (fun v =>
             match nthz (g_matrix g) (r * n + c) with Some q => Ok (q, v) | None => UB end)))) (tapsOf n)) (fun l =>
             obind (dot wide l) (fun a => obind (finish k g a) (fun x => Ok (limitS k (g_maxval g) x))))) x =
         Ok (Z.min (F (square n (g_matrix g) a x y)) (g_maxval g))).
    { intros lo hi LO HI x X. cbv beta. apply (PX x y (fun c => Ok (x - s + c))); [lia | lia |].
      intros c Cc. rewrite mirrored_id by lia. f_equal. lia. }
    unfold segsSquare. fold s. fold wide.
    apply Forall_app. split; [|apply Forall_app; split].
    + apply Forall_cons; [|apply Forall_nil]. split; [lia|]. split; [lia|]. apply ED; lia.
    + destruct (Z.leb_spec n 7).
      * apply Forall_cons; [|apply Forall_nil]. split; [lia|]. split; [lia|]. apply IN; lia.
      * destruct (Z.ltb_spec (2 * s) w); [|apply Forall_nil].
        set (b := s + 16 * ((w - s - s) / 16)).
        assert (s <= b <= w - s).
        { unfold b. pose proof (Z.div_mod (w - s - s) 16 ltac:(lia)). pose proof (Z.mod_pos_bound (w - s - s) 16 ltac:(lia)). pose proof (Z.div_pos (w - s - s) 16 ltac:(lia)). lia. }
        apply Forall_cons; [|apply Forall_cons; [|apply Forall_nil]]; (split; [lia|]; split; [lia|]; apply IN; lia).
    + apply Forall_cons; [|apply Forall_nil]. split; [lia|]. split; [lia|]. apply ED; lia.
  - intros x y X Y.
    destruct (PX x y (fun c => Ok (mirrored w (x + c - s))) X Y (fun c _ => eq_refl)) as (_ & R).
    change (0 <= Z.min (F (square n (g_matrix g) a x y)) (g_maxval g) < 256 ^ k). lia.
Qed.

(** The 3x3 convolution. *)
Lemma square3 : forall m a x y, zlength m = 9 -> 1 <= i_w a -> 1 <= i_h a -> 0 <= x < i_w a -> 0 <= y < i_h a ->
  sumL (map (fun cv : Z * Z => fst cv * snd cv) (combine m (around a x y))) = square 3 m a x y.
Proof.
  intros m a x y L W H X Y. nine_of L. unfold around, offsets, square. change (3 / 2) with 1. change (zseq 3) with [0; 1; 2].
  assert (E : forall n i d, 0 <= i < n -> -1 <= d <= 1 -> edge n (i + d) = mirrored n (i + (d + 1) - 1)).
  { intros n i d I D. unfold mirrored. destruct (Z.ltb_spec (i + (d + 1) - 1) 0); [unfold edge; lia|]. destruct (Z.leb_spec n (i + (d + 1) - 1)); unfold edge; lia. }
  cbn [map combine fst snd]. rewrite !E by lia. unfold coef, sumL.
  change (0 * 3 + 0) with 0. change (0 * 3 + 1) with 1. change (0 * 3 + 2) with 2. change (1 * 3 + 0) with 3. change (1 * 3 + 1) with 4.
  change (1 * 3 + 2) with 5. change (2 * 3 + 0) with 6. change (2 * 3 + 1) with 7. change (2 * 3 + 2) with 8.
  change (-1 + 1) with 0. change (0 + 1) with 1. change (1 + 1) with 2.
  change (Z.to_nat 0) with 0%nat. change (Z.to_nat 1) with 1%nat. change (Z.to_nat 2) with 2%nat. change (Z.to_nat 3) with 3%nat. change (Z.to_nat 4) with 4%nat. change (Z.to_nat 5) with 5%nat. change (Z.to_nat 6) with 6%nat. change (Z.to_nat 7) with 7%nat. change (Z.to_nat 8) with 8%nat.
  cbn [fold_right nth]. ring.
Qed.

Lemma convOp_spec : forall k g F l, smallk k -> zlength (g_matrix g) = 9 -> legalMatrix (g_matrix g) -> finishes k g F ->
  zlength l = 9 -> samples k l ->
  let s := sumL (map (fun cv : Z * Z => fst cv * snd cv) (combine (g_matrix g) l)) in convOp k g l = Ok (F s) /\ 0 <= F s < 256 ^ k.
Proof.
  intros k g F l K L LM FN LL S. cbv zeta. pose proof (smallk_pow k K) as PK. unfold convOp.
  replace (firstn 9 (g_matrix g)) with (g_matrix g) by (symmetry; apply firstn_all2; unfold zlength in L; lia).
  assert (C : cells (256 ^ k - 1) (combine (g_matrix g) l)).
  { unfold cells. rewrite Forall_forall. intros (c & v) I. pose proof (in_combine_l _ _ _ _ I) as I1. pose proof (in_combine_r _ _ _ _ I) as I2.
    unfold legalMatrix in LM. unfold samples in S. rewrite Forall_forall in LM, S. specialize (LM c I1). specialize (S v I2). cbn [fst snd]. lia. }
  assert (CL : zlength (combine (g_matrix g) l) = 9) by (unfold zlength in *; rewrite combine_length; lia).
  destruct (dot_cells false (256 ^ k - 1) k (combine (g_matrix g) l) ltac:(lia) K ltac:(lia) C ltac:(lia) ltac:(right; lia)) as (-> & D2).
  unfold obind. apply FN. exact D2.
Qed.

(** ** One dimension *)

Lemma pixel1d_spec : forall k g F sample v, smallk k -> zlength (g_matrix g) <= 25 -> legalMatrix (g_matrix g) -> 0 <= g_maxval g < 256 ^ k ->
  finishes k g F -> (forall t, 0 <= t < g_size g -> sample t = Ok (v t) /\ 0 <= v t < 256 ^ k) ->
  let s := sumL (map (fun t => coef (g_matrix g) t * v t) (zseq (g_size g))) in
  pixel1d k g sample = Ok (Z.min (F s) (g_maxval g)) /\ 0 <= F s < 256 ^ k.
Proof.
  intros k g F sample v K L LM M FN S. cbv zeta. pose proof (smallk_pow k K) as PK. unfold pixel1d.
  rewrite (mapO_spec _ (fun t => (coef (g_matrix g) t, v t))).
  2:{ intros t I. apply In_zseq in I. destruct (S t I) as (-> & _). unfold obind. rewrite coef_nthz by exact I. reflexivity. }
  set (l := map (fun t => (coef (g_matrix g) t, v t)) (zseq (g_size g))).
  assert (C : cells (256 ^ k - 1) l).
  { unfold cells, l. rewrite Forall_map, Forall_forall. intros t I. apply In_zseq in I. cbn [fst snd]. split; [apply coef_legal; exact LM|]. destruct (S t I). lia. }
  assert (LL : zlength l <= 25) by (unfold l; rewrite zlength_map, zlength_zseq; unfold g_size; pose proof (zlength_nonneg _ (g_matrix g)); lia).
  destruct (dot_cells false (256 ^ k - 1) k l ltac:(lia) K ltac:(lia) C ltac:(lia) ltac:(right; lia)) as (D1 & D2).
  unfold obind. rewrite D1. unfold l in *. rewrite map_map in *. cbn [fst snd] in *. destruct (FN _ D2) as (-> & R).
  rewrite limitS_spec by auto. split; [reflexivity | exact R].
Qed.

Lemma segsH_columns : forall k g w row, 0 <= w -> columns (segsH k g w row) = zseq w.
Proof.
  intros k g w row W. unfold segsH. set (s := g_size g / 2). assert (S : 0 <= s) by (apply Z.div_pos; [apply zlength_nonneg | lia]).
  clearbody s. cbn [columns flat_map fst snd]. rewrite app_nil_r.
  destruct (Z.le_gt_cases w s).
  - rewrite (range_nil s), (range_nil (Z.max _ _)), !app_nil_r by lia. replace (Z.min w s) with w by lia. apply range_0.
  - replace (Z.min w s) with s by lia. destruct (Z.le_gt_cases (w - s) s).
    + rewrite (range_nil s) by lia. cbn [app]. replace (Z.max s (w - s)) with s by lia. rewrite range_app by lia. apply range_0.
    + replace (Z.max s (w - s)) with (w - s) by lia. rewrite range_app, range_app by lia. apply range_0.
Qed.

Definition legal1d (g : gparams) (n : Z) : Prop :=
  legalMatrix (g_matrix g) /\ 3 <= g_size g <= 25 /\ Z.odd (g_size g) = true /\ g_size g / 2 < n.

Lemma odd_half : forall n, Z.odd n = true -> 2 * (n / 2) + 1 = n.
Proof. intros n O. pose proof (Z.div_mod n 2 ltac:(lia)). rewrite (Zmod_odd n), O in H. lia. Qed.

Lemma segsH_ok : forall k g F w row v, smallk k -> legal1d g w -> 0 <= g_maxval g < 256 ^ k -> finishes k g F -> 1 <= w < 2 ^ 31 ->
  (forall x, 0 <= x < w -> row x = Ok (v x) /\ 0 <= v x < 256 ^ k) ->
  let s x := sumL (map (fun c => coef (g_matrix g) c * v (mirrored w (x + c - g_size g / 2))) (zseq (g_size g))) in
  Forall (segOk w (fun x => Z.min (F (s x)) (g_maxval g))) (segsH k g w row) /\
  (forall x, 0 <= x < w -> 0 <= F (s x) < 256 ^ k).
Proof.
  intros k g F w row v K (LM & N & O & HALF) M FN W ROW. cbv zeta. pose proof (odd_half _ O) as OH.
  assert (PX : forall x ix, 0 <= x < w -> (forall t, 0 <= t < g_size g -> ix t = mirrored w (x + t - g_size g / 2)) ->
     pixel1d k g (fun t => row (ix t)) =
       Ok (Z.min (F (sumL (map (fun c => coef (g_matrix g) c * v (mirrored w (x + c - g_size g / 2))) (zseq (g_size g))))) (g_maxval g)) /\
     0 <= F (sumL (map (fun c => coef (g_matrix g) c * v (mirrored w (x + c - g_size g / 2))) (zseq (g_size g)))) < 256 ^ k).
  { intros x ix X IX. apply (pixel1d_spec k g F (fun t => row (ix t)) (fun t => v (mirrored w (x + t - g_size g / 2)))); auto.
    - unfold g_size in N. lia.
    - intros t T. rewrite IX by exact T. apply ROW. apply mirrored_in. lia. }
  split.
  - unfold segsH. set (s := g_size g / 2) in *.
    apply Forall_cons; [|apply Forall_cons; [|apply Forall_cons; [|apply Forall_nil]]].
    + split; [lia|]. split; [lia|]. intros x X. apply PX; [lia|]. intros t T. rewrite tapIndex_spec by lia. reflexivity.
    + split; [lia|]. split; [lia|]. intros x X. apply PX; [lia|]. intros t T. rewrite mirrored_id by lia. lia.
    + split; [lia|]. split; [lia|]. intros x X. apply PX; [lia|]. intros t T. rewrite tapIndex_spec by lia. reflexivity.
  - intros x X. exact (proj2 (PX x (fun t => mirrored w (x + t - g_size g / 2)) X (fun t _ => eq_refl))).
Qed.

Lemma convH_spec : forall k g F src w h dst, smallk k -> legal1d g w -> 0 <= g_maxval g < 256 ^ k -> finishes k g F ->
  1 <= w < 2 ^ 31 -> 1 <= h < 2 ^ 31 -> wfPlane k src w h -> wfPlane k dst w h -> byteBuf src ->
  exists m, convH k g src w h dst = Ok m /\ b_size m = b_size (p_buf dst) /\
    same (imageOf k (mkPl (p_stride dst) m) w h)
         (weighed (fun s => Z.min (F s) (g_maxval g)) (horizontal (g_matrix g)) (imageOf k src w h)).
Proof.
  intros k g F src w h dst K L M FN W H WS WD B. assert (K1 : 1 <= k) by (destruct K; lia).
  set (a := imageOf k src w h).
  assert (Q : forall y, 0 <= y < h ->
    Forall (segOk w (fun x => Z.min (F (horizontal (g_matrix g) a x y)) (g_maxval g))) (segsH k g w (fun x => sampleAt k src x y)) /\
    forall x, 0 <= x < w -> 0 <= F (horizontal (g_matrix g) a x y) < 256 ^ k).
  { intros y Y. apply (segsH_ok k g F w (fun x => sampleAt k src x y) (fun x => i_at a x y)); auto.
    intros x X. split; [apply sampleAt_spec; auto; lia | apply image_range; [lia | exact B]]. }
  unfold convH, weighed. change (i_w a) with w. change (i_h a) with h. apply paintRows_spec; [exact K1 | exact WD | |].
  - intros y Y. split; [apply Q; exact Y | apply columns_covered; apply segsH_columns; lia].
  - intros x y X Y. destruct (Q y Y) as (_ & R). specialize (R x X). change (0 <= Z.min (F (horizontal (g_matrix g) a x y)) (g_maxval g) < 256 ^ k). lia.
Qed.

Lemma segsV_ok : forall k g F src w h y, smallk k -> legal1d g h -> 0 <= g_maxval g < 256 ^ k -> finishes k g F -> 0 <= w -> 1 <= h < 2 ^ 31 ->
  wfPlane k src w h -> byteBuf src -> 0 <= y < h ->
  let a := imageOf k src w h in
  Forall (segOk w (fun x => Z.min (F (vertical (g_matrix g) a x y)) (g_maxval g))) (segsV k g src w h y) /\
  (forall x, 0 <= x < w -> 0 <= F (vertical (g_matrix g) a x y) < 256 ^ k).
Proof.
  intros k g F src w h y K (LM & N & O & HALF) M FN W H WS B Y a. assert (K1 : 1 <= k) by (destruct K; lia). pose proof (odd_half _ O) as OH.
  assert (PX : forall x, 0 <= x < w -> pixel1d k g (fun t => sampleAt k src x (tapIndex (g_size g / 2) h y y t)) =
       Ok (Z.min (F (vertical (g_matrix g) a x y)) (g_maxval g)) /\ 0 <= F (vertical (g_matrix g) a x y) < 256 ^ k).
  { intros x X. apply (pixel1d_spec k g F _ (fun t => i_at a x (mirrored h (y + t - g_size g / 2)))); auto.
    - unfold g_size in N. lia.
    - intros t T. rewrite tapIndex_spec by lia. split; [apply sampleAt_spec; auto; apply mirrored_in; lia | apply image_range; [lia | exact B]]. }
  split; [|intros x X; apply (PX x X)]. unfold segsV. apply Forall_cons; [|apply Forall_nil].
  split; [lia|]. split; [lia|]. intros x X. apply PX. lia.
Qed.

Lemma segsV_columns : forall k g src w h y, columns (segsV k g src w h y) = zseq w.
Proof. intros. unfold segsV. cbn [columns flat_map fst snd]. rewrite app_nil_r. apply range_0. Qed.

Lemma convV_spec : forall k g F src w h dst, smallk k -> legal1d g h -> 0 <= g_maxval g < 256 ^ k -> finishes k g F ->
  1 <= w < 2 ^ 31 -> 1 <= h < 2 ^ 31 -> wfPlane k src w h -> wfPlane k dst w h -> byteBuf src ->
  exists m, convV k g src w h dst = Ok m /\ b_size m = b_size (p_buf dst) /\
    same (imageOf k (mkPl (p_stride dst) m) w h)
         (weighed (fun s => Z.min (F s) (g_maxval g)) (vertical (g_matrix g)) (imageOf k src w h)).
Proof.
  intros k g F src w h dst K L M FN W H WS WD B. assert (K1 : 1 <= k) by (destruct K; lia).
  set (a := imageOf k src w h).
  unfold convV, weighed. change (i_w a) with w. change (i_h a) with h. apply paintRows_spec; [exact K1 | exact WD | |].
  - intros y Y. split; [apply segsV_ok; auto; lia | apply columns_covered; apply segsV_columns].
  - intros x y X Y. destruct (segsV_ok k g F src w h y K L M FN ltac:(lia) H WS B Y) as (_ & R). specialize (R x X). fold a in R.
    change (0 <= Z.min (F (vertical (g_matrix g) a x y)) (g_maxval g) < 256 ^ k). lia.
Qed.

Lemma convX_spec : forall k g F t0 src w h dst, smallk k -> legal1d g w -> legal1d g h -> 0 <= g_maxval g < 256 ^ k -> finishes k g F ->
  1 <= w < 2 ^ 31 -> 1 <= h < 2 ^ 31 -> wfPlane k src w h -> wfPlane k dst w h -> byteBuf src ->
  let fin := fun s => Z.min (F s) (g_maxval g) in
  exists m, convX k g t0 src w h dst = Ok m /\ b_size m = b_size (p_buf dst) /\
    same (imageOf k (mkPl (p_stride dst) m) w h)
         (weighed fin (horizontal (g_matrix g)) (weighed fin (vertical (g_matrix g)) (imageOf k src w h))).
Proof.
  intros k g F t0 src w h dst K LW LH M FN W H WS (WD0 & HD0 & SD & BD) B fin. assert (K1 : 1 <= k) by (destruct K; lia).
  set (a := imageOf k src w h). set (b := weighed fin (vertical (g_matrix g)) a).
  set (gg := fun x y => fin (horizontal (g_matrix g) b x y)).
  set (str := p_stride dst).
  (* the scanline of row y holds row y of b *)
  assert (ROW : forall y t, 0 <= y < h -> b_size t = w * k -> exists t', paintRow k 0 (segsV k g src w h y) t = Ok t' /\ b_size t' = w * k /\
     forall x, 0 <= x < w -> loadS k t' (x * k) = Ok (i_at b x y) /\ 0 <= i_at b x y < 256 ^ k).
  { intros y t Y TS. destruct (segsV_ok k g F src w h y K LH M FN ltac:(lia) H WS B Y) as (SO & R). fold a in SO, R.
    destruct (paintRow_spec k w 0 (fun x => Z.min (F (vertical (g_matrix g) a x y)) (g_maxval g)) K1 (segsV k g src w h y) t ltac:(lia) ltac:(lia) SO)
      as (t' & E & R1 & R2 & _).
    { apply columns_covered. apply segsV_columns. }
    exists t'. split; [exact E|]. split; [lia|]. intros x X. specialize (R x X).
    change (i_at b x y) with (Z.min (F (vertical (g_matrix g) a x y)) (g_maxval g)).
    split; [|lia]. assert (x * k + k <= w * k) by nia. rewrite loadS_ok by nia. f_equal. apply leval_stored; [lia | lia |].
    intros j J. rewrite <- (R2 x X I j J). reflexivity. }
  assert (VAL : forall x y, 0 <= x < w -> 0 <= y < h -> 0 <= gg x y < 256 ^ k).
  { intros x y X Y. destruct (ROW y (mkB (w * k) t0) Y eq_refl) as (t' & _ & _ & RV).
    destruct (segsH_ok k g F w (fun x => loadS k t' (x * k)) (fun x => i_at b x y) K LW M FN W RV) as (_ & R).
    specialize (R x X). unfold gg, fin. change (F (horizontal (g_matrix g) b x y)) with (F (sumL (map (fun c => coef (g_matrix g) c * i_at b (mirrored w (x + c - g_size g / 2)) y) (zseq (g_size g))))). lia. }
  unfold convX.
  destruct (forZ_inv (fun y mt => b_size (fst mt) = b_size (p_buf dst) /\ b_size (snd mt) = w * k /\ painted k w h gg str y 0 (fst mt))
    (fun y mt => obind (paintRow k 0 (segsV k g src w h y) (snd mt)) (fun t =>
           obind (paintRow k (y * p_stride dst) (segsH k g w (fun x => loadS k t (x * k))) (fst mt)) (fun m => Ok (m, t)))) h
    (p_buf dst, mkB (w * k) t0) HD0) as (mt & E & M1 & M2 & M3).
  - split; [reflexivity|]. split; [reflexivity|]. intros u v U V C. lia.
  - intros y mt Y (Q1 & Q2 & Q3). destruct (ROW y (snd mt) Y Q2) as (t' & -> & TS & RV). cbn [obind]. fold str.
    destruct (segsH_ok k g F w (fun x => loadS k t' (x * k)) (fun x => i_at b x y) K LW M FN W RV) as (SO & R).
    assert (YS : y * str + w * k <= b_size (fst mt)) by (rewrite Q1, BD; fold str in SD |- *; nia).
    destruct (paintRow_spec k w (y * str) (fun x => gg x y) K1 (segsH k g w (fun x => loadS k t' (x * k))) (fst mt)) as (m & -> & R1 & R2 & R3).
    + assert (0 <= str) by (unfold str; nia). nia.
    + exact YS.
    + exact SO.
    + apply columns_covered. apply segsH_columns. lia.
    + cbn [obind]. exists (m, t'). split; [reflexivity|]. cbn [fst snd]. split; [rewrite R1; exact Q1|]. split; [exact TS|].
      intros u v U V C j J. assert (VC : v < y \/ v = y) by lia. destruct VC as [VC| ->].
      * rewrite R3; [apply Q3; auto; lia|]. left. assert (u * k + k <= w * k) by nia. fold str in SD. nia.
      * apply R2; auto.
  - rewrite E. cbn [obind]. exists (fst mt). split; [reflexivity|]. split; [exact M1|]. unfold weighed at 1. change (i_w b) with w. change (i_h b) with h.
    apply painted_image with (x := 0); [exact K1 | lia | exact VAL | exact M3].
Qed.
