(** Small facts behind the property statements of the merging filters. *)
From Coq Require Import ZArith List Lia Bool.
From Verif Require Import Common Simd MergeSpec Merge MergeLemmas MergeLemmas2.
Import ListNotations.
Open Scope Z_scope.

Lemma mask_unique : forall d v1 v2 m q, 8 <= d <= 16 ->
  sample d v1 -> sample d v2 -> sample d m ->
  nearest ((maxOf d - m) * v1 + m * v2) (maxOf d) q -> maskMergeKernel d v1 v2 m = q.
Proof.
  intros d v1 v2 m q Hd H1 H2 H3 N.
  pose proof (maxOf_pos d ltac:(lia)).
  eapply nearest_unique; [|apply (maxOf_odd d); lia|apply mask_rounds; assumption|exact N]. lia.
Qed.

Lemma planeOffset_sample : forall range gy yuv d p, 8 <= d <= 16 ->
  sample d (planeOffset range gy yuv d p).
Proof.
  intros range gy yuv d p Hd. unfold sample, planeOffset, limitedOffset.
  pose proof (pow2_half d ltac:(lia)) as H2. pose proof (pow8 d Hd) as HP.
  assert (H8 : 2 ^ d = 2 ^ 8 * 2 ^ (d - 8)) by (rewrite <- Z.pow_add_r by lia; f_equal; lia).
  change (2 ^ 8) with 256 in H8.
  destruct ((0 <? p) && yuv); [lia|].
  destruct (match range with Some r => r =? 0 | None => gy end); lia.
Qed.

Lemma mergeCreate_ok : forall np ok ws, (length ws <= 3)%nat ->
  (forall f, In f ws -> 0 < snd f) ->
  mergeCreate np ok ws <> UB /\
  (forall cs, mergeCreate np ok ws = Ok cs ->
     zlength ws <= np /\ ok = true /\ (forall f, In f ws -> inUnit f = true) /\
     cs = [planeCfg (nth 0 ws half);
           planeCfg (nth 1 ws (nth 0 ws half));
           planeCfg (nth 2 ws (nth 1 ws (nth 0 ws half)))]).
Proof.
  intros np ok ws Hl Hp. split.
  - unfold mergeCreate.
    assert (exists t, fillWeights ws = Ok t) as [[[a b] c] ->].
    { destruct ws as [|f1 [|f2 [|f3 [|f4 ws]]]]; cbn [length] in Hl; try lia; eexists; reflexivity. }
    cbn [obind]. destruct (negb _); [discriminate|]. destruct (negb _); [discriminate|].
    match goal with |- (if ?t then _ else _) <> _ => destruct t end; discriminate.
  - intros cs H. destruct (mergeCreate_planes _ _ _ _ Hp H) as (A & B & C & D & a & b & c & E & F & G & I & _).
    subst. auto.
Qed.

Lemma mergeCreate_refuted : exists np ok ws,
  1 <= np <= 3 /\ (forall f, In f ws -> 0 < snd f /\ inUnit f = true) /\ np < zlength ws /\
  mergeCreate np ok ws = UB.
Proof.
  exists 3, true, [half; half; half; half]. split; [lia|]. split; [|split; [vm_compute; reflexivity|reflexivity]].
  intros f H. cbn [In] in H. assert (f = half) as -> by (destruct H as [H|[H|[H|[H|[]]]]]; auto). split; [cbn; lia|reflexivity].
Qed.

Lemma maskAccepted_depth : forall clip mask dims first, maskAccepted clip mask dims first = true ->
  dims = true /\ mf_bits mask = mf_bits clip /\
  (first = true \/ mf_planes mask = 1 \/ mf_gray mask = true \/
   (mf_float mask = mf_float clip /\ mf_planes mask = mf_planes clip)).
Proof.
  intros clip mask dims first H. unfold maskAccepted in H. cbv zeta in H.
  apply negb_true_iff in H. apply orb_false_iff in H. destruct H as [H H3].
  apply orb_false_iff in H. destruct H as [H1 H2].
  apply negb_false_iff in H1, H2. apply Z.eqb_eq in H2. split; [exact H1|]. split; [exact H2|].
  destruct first; [auto|]. cbn [orb] in H3.
  destruct (Z.eqb_spec (mf_planes mask) 1); [auto|]. destruct (mf_gray mask) eqn:G; [auto|].
  right; right; right. cbn [negb andb] in H3. rewrite !andb_true_r in H3. apply negb_false_iff in H3.
  unfold mfmt_eqb in H3. repeat (apply andb_true_iff in H3; destruct H3 as [H3 ?]).
  apply Bool.eqb_prop in H3. split; [exact H3|]. apply Z.eqb_eq; assumption.
Qed.

(** a half precision Gray mask with a 16 bit integer clip *)
Lemma maskAccepted_refuted : exists clip mask,
  mf_float clip = false /\ mf_float mask = true /\ mf_bits mask = 16 /\
  maskAccepted clip mask true false = true.
Proof.
  exists {| mf_float := false; mf_bits := 16; mf_planes := 3; mf_gray := false; mf_rest := 0 |},
    {| mf_float := true; mf_bits := 16; mf_planes := 1; mf_gray := true; mf_rest := 0 |}.
  repeat split.
Qed.
