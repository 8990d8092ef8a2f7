(** Geometry of frames: strides, sizes, and the allocation lemmas built on them. *)
From Coq Require Import ZArith List Lia Bool.
From Verif Require Import Common Sums Memory MemoryLemmas FormatSpec FrameSpec Frame FrameLemmas.
Import ListNotations.
Open Scope Z_scope.

Definition isAl (al : Z) : Prop := exists n, al = 2 ^ n /\ 0 <= n.

Lemma isAl_pos : forall al, isAl al -> 0 < al.
Proof. intros al (n & -> & H). apply Z.pow_pos_nonneg; lia. Qed.

Lemma valid_bytes : forall f, fmt_valid f -> 1 <= f_bytes f <= 4.
Proof. intros f (_ & _ & (B & _) & _). lia. Qed.
Lemma valid_ss : forall f, fmt_valid f -> 0 <= f_ssw f <= 4 /\ 0 <= f_ssh f <= 4.
Proof. intros f (_ & _ & _ & S & _). lia. Qed.
Lemma valid_np : forall f, fmt_valid f -> f_np f = 1 \/ f_np f = 3.
Proof. intros f (_ & _ & _ & _ & S). lia. Qed.

Lemma getWidth_planeW : forall f w i, fmt_valid f -> getWidth f w i = planeW f w i.
Proof.
  intros f w i V. pose proof (valid_ss f V). unfold getWidth, planeW. destruct (i =? 0).
  - apply Z.shiftr_0_r.
  - apply Z.shiftr_div_pow2. lia.
Qed.
Lemma getHeight_planeH : forall f h i, fmt_valid f -> getHeight f h i = planeH f h i.
Proof.
  intros f w i V. pose proof (valid_ss f V). unfold getHeight, planeH. destruct (i =? 0).
  - apply Z.shiftr_0_r.
  - apply Z.shiftr_div_pow2. lia.
Qed.

Lemma div_pow_le : forall w n, 0 <= w -> 0 <= n -> 0 <= w / 2 ^ n <= w.
Proof.
  intros w n Hw Hn. assert (0 < 2 ^ n) by (apply Z.pow_pos_nonneg; lia). split.
  - apply Z.div_pos; lia.
  - apply Z.div_le_upper_bound; nia.
Qed.

Lemma planeW_bounds : forall f w i, fmt_valid f -> 0 <= w -> 0 <= planeW f w i <= w.
Proof.
  intros f w i V H. pose proof (valid_ss f V). unfold planeW. destruct (i =? 0); [lia|].
  apply div_pow_le; lia.
Qed.
Lemma planeH_bounds : forall f w i, fmt_valid f -> 0 <= w -> 0 <= planeH f w i <= w.
Proof.
  intros f w i V H. pose proof (valid_ss f V). unfold planeH. destruct (i =? 0); [lia|].
  apply div_pow_le; lia.
Qed.

Lemma ceilTo_mono : forall al x y, 0 < al -> x <= y -> ceilTo al x <= ceilTo al y.
Proof.
  intros al x y A H. unfold ceilTo.
  pose proof (Z.div_le_mono (x + al - 1) (y + al - 1) al ltac:(lia) ltac:(lia)). nia.
Qed.
Lemma ceilTo_bounds : forall al x, 0 < al -> x <= ceilTo al x < x + al /\ (al | ceilTo al x).
Proof.
  intros al x A. unfold ceilTo. pose proof (Z.div_mod (x + al - 1) al ltac:(lia)).
  pose proof (Z.mod_pos_bound (x + al - 1) al A). split; [lia|]. apply Z.divide_factor_l.
Qed.

Lemma stride0_spec : forall al f w, isAl al -> fmt_valid f -> 0 <= w -> stride0 al f w = strideOf al f w 0.
Proof.
  intros al f w (n & E & N) V W. pose proof (valid_bytes f V). unfold stride0, strideOf, planeW, ceilTo. cbn [Z.eqb].
  apply (alignUp_spec _ al n E N). nia.
Qed.
Lemma stride12_spec : forall al f w i, isAl al -> fmt_valid f -> 0 <= w -> i <> 0 ->
  stride12 al f w = strideOf al f w i.
Proof.
  intros al f w i (n & E & N) V W I. pose proof (valid_bytes f V). pose proof (valid_ss f V).
  unfold stride12, strideOf, planeW, ceilTo. apply Z.eqb_neq in I. rewrite I, Z.shiftr_div_pow2 by lia.
  apply (alignUp_spec _ al n E N). pose proof (div_pow_le w (f_ssw f) W ltac:(lia)). nia.
Qed.

Lemma strideOf_nonneg : forall al f w i, 0 < al -> fmt_valid f -> 0 <= w -> 0 <= strideOf al f w i.
Proof.
  intros al f w i A V W. pose proof (planeW_bounds f w i V W). pose proof (valid_bytes f V).
  pose proof (ceilTo_bounds al (planeW f w i * f_bytes f) A). unfold strideOf. nia.
Qed.

Lemma planeBytes_bounds : forall al f w h i, 0 < al -> fmt_valid f -> 0 < w -> 0 < h ->
  0 <= planeBytes al (Video f w h) i <= strideOf al f w 0 * h.
Proof.
  intros al f w h i A V W H. cbn [planeBytes].
  pose proof (strideOf_nonneg al f w i A V ltac:(lia)). pose proof (planeH_bounds f h i V ltac:(lia)).
  assert (strideOf al f w i <= strideOf al f w 0).
  { unfold strideOf. apply ceilTo_mono; [auto|]. pose proof (valid_bytes f V).
    pose proof (planeW_bounds f w i V ltac:(lia)). unfold planeW at 2. cbn [Z.eqb]. nia. }
  split; [nia|]. nia.
Qed.

Lemma mul64_ok : forall a b, 0 <= a * b <= INT64_MAX -> mul64 a b = Ok (a * b).
Proof.
  intros a b H. unfold mul64. destruct (in_int64b (a * b)) eqn:E; [reflexivity|].
  assert (in_int64b (a * b) = true); [|congruence]. apply in_int64b_spec. unfold in_int64, INT64_MIN. lia.
Qed.

Lemma size_plane0 : forall al f w h, isAl al -> fmt_valid f -> 0 < w -> 0 < h -> addressable al f w h ->
  mul64 (stride0 al f w) h = Ok (planeBytes al (Video f w h) 0).
Proof.
  intros al f w h A V W H Ad. rewrite (stride0_spec al f w A V) by lia.
  pose proof (planeBytes_bounds al f w h 0 (isAl_pos _ A) V W H) as B. unfold addressable in Ad.
  cbn [planeBytes] in *. unfold planeH in *. cbn [Z.eqb] in *. apply mul64_ok. lia.
Qed.
Lemma size_plane12 : forall al f w h i, isAl al -> fmt_valid f -> 0 < w -> 0 < h -> addressable al f w h -> i <> 0 ->
  mul64 (stride12 al f w) (Z.shiftr h (f_ssh f)) = Ok (planeBytes al (Video f w h) i).
Proof.
  intros al f w h i A V W H Ad I. rewrite (stride12_spec al f w i A V) by lia.
  pose proof (planeBytes_bounds al f w h i (isAl_pos _ A) V W H) as B. unfold addressable in Ad.
  pose proof (getHeight_planeH f h i V) as G. unfold getHeight in G. apply Z.eqb_neq in I. rewrite I in G.
  rewrite G. cbn [planeBytes] in *. apply mul64_ok. lia.
Qed.

(** Equal plane dimensions and sample size give an equal layout. *)
Lemma planeBytes_eq : forall al f w h i f' w' h' k, f_bytes f' = f_bytes f ->
  planeW f' w' k = planeW f w i -> planeH f' h' k = planeH f h i ->
  planeBytes al (Video f' w' h') k = planeBytes al (Video f w h) i.
Proof. intros. cbn [planeBytes]. unfold strideOf. congruence. Qed.
