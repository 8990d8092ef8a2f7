(** Proofs about the timecodes of vspipe. *)
From Coq Require Import ZArith QArith Qabs Qpower Lqa List Bool Lia SpecFloat Sorted Permutation.
From Verif Require Import Common Soft SoftLemmas SoftBounds SoftErr SoftAdd TimeSpec Time.
Import ListNotations.
Open Scope Z_scope.

Definition exactMap (m : counts) : Q := fold_right (fun x s => inject_Z (snd x) * seconds (fst x) + s)%Q 0%Q m.
Definition sumCounts (m : counts) : Z := fold_right (fun x s => snd x + s) 0 m.
Definition below (a b : duration * Z) : Prop := keyLt (fst a) (fst b) = true.
Lemma keyEq_spec : forall a b, keyEq a b = true <-> a = b.
Proof. intros [a b] [c d]. unfold keyEq. cbn [fst snd]. rewrite andb_true_iff, !Z.eqb_eq. split; [intros [-> ->]; reflexivity|intros E; injection E; auto]. Qed.
Lemma keyLt_spec : forall a b, keyLt a b = true <-> fst a < fst b \/ (fst a = fst b /\ snd a < snd b).
Proof. intros. unfold keyLt. rewrite orb_true_iff, andb_true_iff, Z.eqb_eq, !Z.ltb_lt. reflexivity. Qed.
Lemma keyLt_trans : forall a b c, keyLt a b = true -> keyLt b c = true -> keyLt a c = true.
Proof. intros a b c. rewrite !keyLt_spec. lia. Qed.
Lemma keyLt_irrefl : forall a, keyLt a a = false.
Proof. intros a. destruct (keyLt a a) eqn:E; [|reflexivity]. apply keyLt_spec in E. lia. Qed.
Lemma keyLt_total : forall a b, keyEq a b = false -> keyLt a b = false -> keyLt b a = true.
Proof.
  intros a b E1 E2. apply keyLt_spec. destruct (Z.lt_trichotomy (fst b) (fst a)) as [H|[H|H]]; [auto| |].
  - destruct (Z.lt_trichotomy (snd b) (snd a)) as [G|[G|G]]; [auto| |].
    + exfalso. assert (a = b) by (destruct a, b; cbn in *; congruence). apply keyEq_spec in H0. congruence.
    + exfalso. assert (keyLt a b = true) by (apply keyLt_spec; lia). congruence.
  - exfalso. assert (keyLt a b = true) by (apply keyLt_spec; lia). congruence.
Qed.
Lemma inc_keys : forall k m j, In j (map fst (increment k m)) <-> j = k \/ In j (map fst m).
Proof.
  intros k m j. induction m as [|[i c] m IH]; cbn [increment]; [cbn; intuition|].
  destruct (keyEq k i) eqn:E; [apply keyEq_spec in E; subst; cbn; intuition|]. destruct (keyLt k i); cbn [map fst In]; [intuition|]. rewrite IH. intuition.
Qed.
Lemma inc_sorted : forall k m, StronglySorted below m -> StronglySorted below (increment k m).
Proof.
  intros k m S. induction S as [|[i c] m S IH F]; cbn [increment]; [repeat constructor|].
  destruct (keyEq k i) eqn:E; [apply keyEq_spec in E; subst; constructor; assumption|].
  destruct (keyLt k i) eqn:E2.
  - constructor; [constructor; assumption|]. constructor; [exact E2|]. eapply Forall_impl; [|exact F]. intros x Hx. unfold below in *. cbn [fst] in *. eapply keyLt_trans; eassumption.
  - constructor; [exact IH|]. apply Forall_forall. intros x Hx. unfold below. cbn [fst]. apply (in_map fst) in Hx. apply inc_keys in Hx. destruct Hx as [->|Hx]; [now apply keyLt_total|].
    apply in_map_iff in Hx. destruct Hx as (y & <- & Hy). rewrite Forall_forall in F. exact (F y Hy).
Qed.
Lemma inc_exact : forall k m, (exactMap (increment k m) == seconds k + exactMap m)%Q.
Proof.
  intros k m. induction m as [|[i c] m IH]; cbn [increment exactMap fold_right fst snd]; [change (inject_Z 1) with 1%Q; ring|].
  destruct (keyEq k i) eqn:E; [apply keyEq_spec in E; subst; cbn [exactMap fold_right fst snd]; rewrite inject_Z_plus; change (inject_Z 1) with 1%Q; fold (exactMap m); ring|].
  destruct (keyLt k i); cbn [exactMap fold_right fst snd]; fold (exactMap m); [change (inject_Z 1) with 1%Q; ring|]. fold (exactMap (increment k m)). rewrite IH. ring.
Qed.
Lemma inc_sum : forall k m, sumCounts (increment k m) = sumCounts m + 1.
Proof.
  intros k m. induction m as [|[i c] m IH]; cbn [increment sumCounts fold_right fst snd]; [reflexivity|].
  destruct (keyEq k i); [cbn [sumCounts fold_right fst snd]; lia|]. destruct (keyLt k i); cbn [sumCounts fold_right fst snd]; [lia|]. fold (sumCounts (increment k m)) (sumCounts m). lia.
Qed.
Lemma inc_ok : forall k m, durationIs k -> Forall (fun x => durationIs (fst x) /\ 1 <= snd x) m -> Forall (fun x => durationIs (fst x) /\ 1 <= snd x) (increment k m).
Proof.
  intros k m K F. induction F as [|[i c] m (H1 & H2) F IH]; cbn [increment]; [constructor; [split; [exact K|cbn; lia]|constructor]|]. cbn [fst snd] in *.
  destruct (keyEq k i); [constructor; [split; [exact H1|cbn [snd]; lia]|exact F]|]. destruct (keyLt k i); constructor; auto; split; [exact K|cbn; lia].
Qed.
Record holds (m : counts) (acc : list duration) : Prop := {
  h_sorted : StronglySorted below m; h_ok : Forall (fun x => durationIs (fst x) /\ 1 <= snd x) m;
  h_keys : forall k, In k (map fst m) <-> In k acc; h_exact : (exactMap m == total acc)%Q; h_sum : sumCounts m = Z.of_nat (length acc) }.
Lemma holds_start : holds [] [].
Proof. constructor; try constructor; try reflexivity; auto. Qed.
Lemma holds_step : forall m acc d, durationIs d -> holds m acc -> holds (increment d m) (d :: acc).
Proof.
  intros m acc d D [S O K E C]. constructor; [now apply inc_sorted | now apply inc_ok | | | ].
  - intros k. rewrite inc_keys, K. cbn [In]. intuition.
  - rewrite inc_exact, E. reflexivity.
  - rewrite inc_sum, C. cbn [length]. lia.
Qed.
Lemma sorted_nodup : forall m, StronglySorted below m -> NoDup (map fst m).
Proof.
  intros m S. induction S as [|x m S IH F]; cbn [map]; constructor; [|exact IH]. intros I. apply in_map_iff in I. destruct I as (y & E & I). rewrite Forall_forall in F. specialize (F y I).
  unfold below in F. rewrite E, keyLt_irrefl in F. discriminate.
Qed.
Lemma holds_kinds : forall m acc, holds m acc -> length m = kinds acc.
Proof.
  intros m acc [S O K E C]. unfold kinds. rewrite <- (map_length fst). apply Permutation_length. apply NoDup_Permutation; [now apply sorted_nodup|apply NoDup_nodup|].
  intros k. rewrite K. symmetry. apply nodup_In.
Qed.
Lemma kinds_rev : forall l, kinds (rev l) = kinds l.
Proof. intros l. unfold kinds. apply Permutation_length. apply NoDup_Permutation; try apply NoDup_nodup. intros k. rewrite !nodup_In. symmetry. apply in_rev. Qed.
Lemma total_app : forall a b, (total (a ++ b) == total a + total b)%Q.
Proof. intros a b. induction a as [|x a IH]; [change (total b == 0 + total b)%Q; ring|].
  change (seconds x + total (a ++ b) == seconds x + total a + total b)%Q. rewrite IH. ring. Qed.
Lemma total_rev : forall l, (total (rev l) == total l)%Q.
Proof. induction l as [|x l IH]; [reflexivity|]. cbn [rev]. rewrite total_app, IH. cbn [total fold_right]. fold (total l). ring. Qed.

(** Sizes. *)
Lemma seconds_range : forall d, durationIs d -> (tw (-63) <= seconds d /\ seconds d <= tw 63)%Q.
Proof.
  intros [n d] (N & D). cbn [fst snd] in *. unfold seconds. cbn [fst snd].
  assert (DQ : (0 < inject_Z d)%Q) by (apply (inj_lt 0); lia). split.
  - apply Qle_shift_div_l; [exact DQ|]. apply Qle_trans with (tw (-63) * inject_Z (2 ^ 63))%Q.
    + setoid_replace (tw (-63) * inject_Z d)%Q with (inject_Z d * tw (-63))%Q by ring. setoid_replace (tw (-63) * inject_Z (2 ^ 63))%Q with (inject_Z (2 ^ 63) * tw (-63))%Q by ring.
      apply Qmult_le_compat_r; [apply inj_le; lia|apply Qlt_le_weak, tw_pos].
    + setoid_replace (tw (-63) * inject_Z (2 ^ 63))%Q with (inject_Z 1) by (vm_compute; reflexivity). apply inj_le. lia.
  - apply Qle_shift_div_r; [exact DQ|]. apply Qle_trans with (inject_Z (2 ^ 63)); [apply inj_le; lia|].
    rewrite tw_Z by lia. rewrite <- inject_Z_mult. apply inj_le. nia.
Qed.
Lemma exact_range : forall m, Forall (fun x => durationIs (fst x) /\ 1 <= snd x) m -> m <> [] ->
  (tw (-63) <= exactMap m /\ exactMap m <= inject_Z (sumCounts m) * tw 63)%Q /\ 1 <= sumCounts m.
Proof.
  intros m F. induction F as [|[d c] m (D & C) F IH]; intros N; [congruence|]. cbn [fst snd] in *. cbn [exactMap sumCounts fold_right fst snd]. fold (exactMap m) (sumCounts m).
  pose proof (seconds_range d D) as (S1 & S2). assert (SP : (0 < seconds d)%Q) by (apply Qlt_le_trans with (tw (-63)); [apply tw_pos|exact S1]).
  assert (C1 : (1 <= inject_Z c)%Q) by (apply (inj_le 1); exact C).
  assert (T1 : (tw (-63) <= inject_Z c * seconds d)%Q).
  { apply Qle_trans with (1 * seconds d)%Q; [rewrite Qmult_1_l; exact S1|]. apply Qmult_le_compat_r; [exact C1|apply Qlt_le_weak; exact SP]. }
  assert (T2 : (inject_Z c * seconds d <= inject_Z c * tw 63)%Q).
  { setoid_replace (inject_Z c * seconds d)%Q with (seconds d * inject_Z c)%Q by ring. setoid_replace (inject_Z c * tw 63)%Q with (tw 63 * inject_Z c)%Q by ring. apply Qmult_le_compat_r; [exact S2|]. apply Qle_trans with 1%Q; [discriminate|exact C1]. }
  rewrite inject_Z_plus, Qmult_plus_distr_l. destruct m as [|x m].
  - cbn [exactMap sumCounts fold_right]. rewrite Qplus_0_r. split; [|lia]. split; [exact T1|]. change (inject_Z 0) with 0%Q. rewrite Qmult_0_l, Qplus_0_r. exact T2.
  - destruct (IH ltac:(discriminate)) as ((A & B) & G). split; [|lia]. split.
    + apply Qle_trans with (inject_Z c * seconds d)%Q; [exact T1|]. rewrite <- (Qplus_0_r (inject_Z c * seconds d)) at 1. apply Qplus_le_compat; [apply Qle_refl|].
      apply Qle_trans with (tw (-63)); [apply Qlt_le_weak, tw_pos|exact A].
    + apply Qplus_le_compat; assumption.
Qed.
Lemma mid_of : forall a s, 0 <= s <= 2 ^ 31 -> (tw (-63) <= a /\ a <= inject_Z s * tw 63)%Q -> mid a.
Proof.
  intros a s S (A & B). split.
  - apply Qle_trans with (tw (-63)); [vm_compute; discriminate|exact A].
  - apply Qle_trans with (inject_Z s * tw 63)%Q; [exact B|]. apply Qle_trans with (inject_Z (2 ^ 31) * tw 63)%Q; [apply Qmult_le_compat_r; [apply inj_le; lia|apply Qlt_le_weak, tw_pos]|]. vm_compute. discriminate.
Qed.
Lemma mid_int : forall v, 0 < v < 2 ^ 64 -> mid (inject_Z v).
Proof.
  intros v V. split.
  - apply Qle_trans with (inject_Z 1); [vm_compute; discriminate|apply inj_le; lia].
  - apply Qle_trans with (inject_Z (2 ^ 64)); [apply inj_le; lia|vm_compute; discriminate].
Qed.
Lemma portion_ok : forall d c, durationIs d -> 1 <= c <= 2 ^ 31 -> appr 5 (inject_Z c * seconds d) (portion (d, c)).
Proof.
  intros [n d] c (N & D) C. cbn [fst snd] in *. unfold portion. cbn [fst snd].
  pose proof (div_appr 1 1 _ _ _ _ (mid_int n ltac:(lia)) (mid_int d ltac:(lia)) ltac:(lia) ltac:(lia) (of64_appr n ltac:(lia)) (of64_appr d ltac:(lia))) as Q.
  assert (MS : mid (seconds (n, d))).
  { apply (mid_of _ 1); [lia|]. pose proof (seconds_range (n, d) (conj N D)) as (A & B). split; [exact A|]. change (inject_Z 1) with 1%Q. rewrite Qmult_1_l. exact B. }
  exact (mul_appr 1 3 _ _ _ _ (mid_int c ltac:(lia)) MS ltac:(lia) ltac:(lia) (of64_appr c ltac:(lia)) Q).
Qed.
Lemma add_zero : forall x n a, appr n a x -> add64 (S754_zero false) x = x.
Proof. intros x n a (m & e & -> & _). reflexivity. Qed.
Lemma sum_ok : forall m a s x k, mid a -> (tw (-63) <= a /\ a <= inject_Z s * tw 63)%Q -> 1 <= s -> s + sumCounts m <= 2 ^ 31 ->
  (5 <= k)%nat -> Z.of_nat (k + length m) <= 2 ^ 40 -> Forall (fun x => durationIs (fst x) /\ 1 <= snd x) m -> appr k a x ->
  appr (k + length m) (a + exactMap m) (fold_left (fun s x => add64 s (portion x)) m x).
Proof.
  intros m. induction m as [|[d c] m IH]; intros a s x k A R S1 S K N F X; cbn [fold_left length].
  - rewrite Nat.add_0_r. eapply appr_eq; [|exact X]. cbn [exactMap fold_right]. ring.
  - inversion F as [|y l (D & C) F' E]; subst. cbn [fst snd sumCounts fold_right length] in *. fold (sumCounts m) in S.
    assert (SM : 0 <= sumCounts m). { destruct m as [|z m']; [cbn; lia|]. destruct (exact_range (z :: m') F' ltac:(discriminate)). lia. }
    pose proof (portion_ok d c D ltac:(lia)) as Po. pose proof (seconds_range d D) as (Q1 & Q2).
    assert (SP : (0 < seconds d)%Q) by (apply Qlt_le_trans with (tw (-63)); [apply tw_pos|exact Q1]).
    assert (RT : (tw (-63) <= inject_Z c * seconds d /\ inject_Z c * seconds d <= inject_Z c * tw 63)%Q).
    { destruct (exact_range [(d, c)] ltac:(constructor; [split; assumption|constructor]) ltac:(discriminate)) as ((E1 & E2) & _). cbn [exactMap sumCounts fold_right fst snd] in E1, E2. rewrite Qplus_0_r in E1, E2. rewrite Z.add_0_r in E2. split; assumption. }
    assert (MT : mid (inject_Z c * seconds d)) by (apply (mid_of _ c); [lia|exact RT]).
    assert (Po' : appr k (inject_Z c * seconds d) (portion (d, c))) by (apply appr_more with 5%nat; [exact K|apply Qlt_le_weak, mid_pos, MT|exact Po]).
    pose proof (add_appr k _ _ _ _ A MT ltac:(lia) X Po') as Ad.
    assert (RA : (tw (-63) <= a + inject_Z c * seconds d /\ a + inject_Z c * seconds d <= inject_Z (s + c) * tw 63)%Q).
    { rewrite inject_Z_plus, Qmult_plus_distr_l. destruct R as (R1 & R2). destruct RT as (R3 & R4). split; [|apply Qplus_le_compat; assumption].
      rewrite <- (Qplus_0_r (tw (-63))). apply Qplus_le_compat; [exact R1|]. apply Qle_trans with (tw (-63)); [apply Qlt_le_weak, tw_pos|exact R3]. }
    replace (k + Datatypes.S (length m))%nat with (k + 1 + length m)%nat by lia.
    eapply appr_eq; [|apply (IH (a + inject_Z c * seconds d)%Q (s + c) (add64 x (portion (d, c))) (k + 1)%nat); [apply (mid_of _ (s + c)); [lia|exact RA] | exact RA | lia | lia | lia | lia | exact F' | exact Ad]].
    cbn [exactMap fold_right fst snd]. fold (exactMap m). ring.
Qed.
Lemma line_ok : forall m acc, holds m acc -> acc <> [] -> Z.of_nat (length acc) <= 2 ^ 31 -> appr (kinds acc + 6) (1000 * total acc) (line m).
Proof.
  intros m acc H NE LE. rewrite <- (holds_kinds m acc H). destruct H as [S O K E C]. destruct m as [|[d c] m]; [destruct acc as [|d acc]; [congruence|]; exfalso; apply (K d); left; reflexivity|].
  pose proof (exact_range _ O ltac:(discriminate)) as (R & _). inversion O as [|y l (D & Cc) F' Q]; subst. cbn [fst snd] in *.
  cbn [sumCounts fold_right snd] in C. fold (sumCounts m) in C.
  assert (SM : 0 <= sumCounts m). { destruct m as [|z m']; [cbn; lia|]. destruct (exact_range (z :: m') F' ltac:(discriminate)). lia. }
  pose proof (portion_ok d c D ltac:(lia)) as Po.
  assert (RT : (tw (-63) <= inject_Z c * seconds d /\ inject_Z c * seconds d <= inject_Z c * tw 63)%Q).
  { destruct (exact_range [(d, c)] ltac:(constructor; [split; assumption|constructor]) ltac:(discriminate)) as ((E1 & E2) & _). cbn [exactMap sumCounts fold_right fst snd] in E1, E2. rewrite Qplus_0_r in E1, E2. rewrite Z.add_0_r in E2. split; assumption. }
  assert (LM : Z.of_nat (length m) <= sumCounts m).
  { clear - F'. induction F' as [|[d c] m (D & C) F IH]; [cbn; lia|]. cbn [length sumCounts fold_right snd fst] in *. fold (sumCounts m). lia. }
  pose proof (sum_ok m _ c _ 5 (mid_of _ c ltac:(lia) RT) RT Cc ltac:(lia) ltac:(lia) ltac:(lia) F' Po) as Su.
  unfold line, getCurrentTimecode. cbn [fold_left]. rewrite (add_zero _ _ _ Po). cbn [length].
  assert (MA : mid (inject_Z c * seconds d + exactMap m)).
  { apply (mid_of _ (c + sumCounts m)); [lia|]. cbn [exactMap sumCounts fold_right fst snd] in R. exact R. }
  replace (Datatypes.S (length m) + 6)%nat with (5 + length m + 1 + 1)%nat by lia.
  eapply appr_eq; [|exact (mul_appr (5 + length m) 1 _ (inject_Z 1000) _ _ MA (mid_int 1000 ltac:(lia)) ltac:(lia) ltac:(lia) Su (of64_appr 1000 ltac:(lia)))].
  rewrite <- E. cbn [exactMap fold_right fst snd]. fold (exactMap m). change (inject_Z 1000) with 1000%Q. ring.
Qed.

(** The lines of a file. *)
Lemma nth_error_Some_lt : forall (A : Type) (l : list A) i x, nth_error l i = Some x -> (i < length l)%nat.
Proof. intros A l i x E. apply nth_error_Some. rewrite E. discriminate. Qed.
Definition propsOf (d : duration) : props := (Some (fst d), Some (snd d)).
Lemma propsOf_ok : forall d, durationIs d -> durationOf (propsOf d) = Some d.
Proof.
  intros [n d] (N & D). cbn [fst snd] in *. unfold durationOf, propsOf. cbn [fst snd]. destruct (Z.leb_spec d 0); [lia|]. destruct (Z.leb_spec n 0); [lia|]. reflexivity.
Qed.
Fixpoint state (m : counts) (l : list duration) : counts := match l with [] => m | d :: r => state (increment d m) r end.
Lemma state_holds : forall l m acc, Forall durationIs l -> holds m acc -> holds (state m l) (rev l ++ acc).
Proof.
  intros l. induction l as [|d l IH]; intros m acc F H; cbn [state rev app]; [exact H|]. inversion F; subst. rewrite <- app_assoc. cbn [app]. apply IH; [assumption|]. now apply holds_step.
Qed.
Lemma timecodes_lines : forall l m rest, Forall durationIs l ->
  timecodes m (map propsOf l ++ rest) = (map (fun i => line (state m (firstn i l))) (seq 0 (length l)) ++ fst (timecodes (state m l) rest), snd (timecodes (state m l) rest)).
Proof.
  intros l. induction l as [|d l IH]; intros m rest F; cbn [map app timecodes state length seq]; [now destruct (timecodes m rest)|]. inversion F as [|x y Hd Hl E]; subst.
  rewrite (propsOf_ok d Hd). rewrite (IH (increment d m) rest Hl). cbn [firstn state]. f_equal. cbn [app]. f_equal. rewrite <- seq_shift, map_map. reflexivity.
Qed.
Lemma value_appr : forall n a x, appr n a x -> exists v, value x = Some v /\ ((1 - inject_Z (Z.of_nat n) * unit64) * a <= v /\ (1 - inject_Z (Z.of_nat n) * unit64) * v <= a)%Q.
Proof.
  intros n a x (m & e & -> & D & (H1 & H2)). eexists. split; [reflexivity|]. pose proof (Lp_bern n) as B. change u53 with unit64 in B. pose proof (mg_pos m e) as MP.
  change (inject_Z (Z.pos m) * Qpower (2 # 1) e)%Q with (mg m e). 
  assert (A : (0 <= a)%Q). { apply Qle_trans with (Lp n * mg m e)%Q; [|exact H2]. apply Qmult_le_0; [apply Qlt_le_weak, Lp_pos|apply Qlt_le_weak; exact MP]. }
  rewrite Qmult_1_l. split.
  - apply Qle_trans with (Lp n * a)%Q; [apply Qmult_le_compat_r; assumption|exact H1].
  - apply Qle_trans with (Lp n * mg m e)%Q; [apply Qmult_le_compat_r; [assumption|apply Qlt_le_weak; exact MP]|exact H2].
Qed.
Lemma lines_close : forall l, Forall durationIs l -> Z.of_nat (length l) <= 2 ^ 31 ->
  exists ls, timecodes [] (map propsOf l) = (ls, false) /\ length ls = length l /\
    forall i x, nth_error ls i = Some x -> exists v, value x = Some v /\ close (kinds (firstn i l) + 6) (1000 * total (firstn i l)) v.
Proof.
  intros l F LE. pose proof (timecodes_lines l [] [] F) as T. rewrite app_nil_r in T. cbn [timecodes fst snd] in T. rewrite app_nil_r in T.
  eexists. split; [exact T|]. rewrite map_length, seq_length. split; [reflexivity|]. intros i x E.
  assert (I : (i < length l)%nat) by (apply nth_error_Some_lt in E; rewrite map_length, seq_length in E; exact E).
  rewrite nth_error_map in E. destruct (nth_error (seq 0 (length l)) i) as [j|] eqn:Ej; [|discriminate]. 
  assert (j = i). { apply nth_error_nth with (d := O) in Ej. rewrite seq_nth in Ej by exact I. lia. } subst j. cbn [option_map] in E. injection E as <-.
  assert (Fi : Forall durationIs (firstn i l)) by (rewrite Forall_forall in *; intros z Hz; apply F; rewrite <- (firstn_skipn i l); apply in_or_app; left; exact Hz).
  pose proof (state_holds (firstn i l) [] [] Fi holds_start) as H. rewrite app_nil_r in H.
  destruct i as [|i]; [exists 0%Q; split; [reflexivity|split; vm_compute; discriminate]|].
  assert (NE : rev (firstn (Datatypes.S i) l) <> []). { intros Q. apply (f_equal (@length _)) in Q. rewrite rev_length, firstn_length in Q. cbn [length] in Q. lia. }
  pose proof (line_ok _ _ H NE ltac:(rewrite rev_length, firstn_length; lia)) as A. rewrite kinds_rev in A.
  assert (A' : appr (kinds (firstn (Datatypes.S i) l) + 6) (1000 * total (firstn (Datatypes.S i) l)) (line (state [] (firstn (Datatypes.S i) l)))) by (eapply appr_eq; [|exact A]; rewrite total_rev; reflexivity).
  apply value_appr in A'. destruct A' as (v & V & C). exists v. split; [exact V|exact C].
Qed.
(** Constant durations. *)
Lemma kinds_repeat : forall d n, kinds (repeat d (Datatypes.S n)) = 1%nat.
Proof.
  intros d n. unfold kinds. induction n as [|n IH]; [reflexivity|]. cbn [repeat nodup] in *. destruct (in_dec durEq d (d :: repeat d n)) as [_|H]; [exact IH|exfalso; apply H; left; reflexivity].
Qed.
Lemma total_repeat : forall d n, (total (repeat d n) == inject_Z (Z.of_nat n) * seconds d)%Q.
Proof. intros d n. induction n as [|n IH]; [cbn; ring|]. change (total (repeat d (Datatypes.S n))) with (seconds d + total (repeat d n))%Q. rewrite IH, Nat2Z.inj_succ, <- Z.add_1_r, inject_Z_plus. change (inject_Z 1) with 1%Q. ring. Qed.
Lemma firstn_repeat : forall (d : duration) i n, (i <= n)%nat -> firstn i (repeat d n) = repeat d i.
Proof. intros d i. induction i as [|i IH]; intros n H; [reflexivity|]. destruct n as [|n]; [lia|]. cbn [repeat firstn]. rewrite IH by lia. reflexivity. Qed.
Lemma lines_increase : forall d n ls, durationIs d -> Z.of_nat n <= 2 ^ 31 -> timecodes [] (map propsOf (repeat d n)) = (ls, false) ->
  forall i j x y, (i < j)%nat -> nth_error ls i = Some x -> nth_error ls j = Some y -> exists v w, value x = Some v /\ value y = Some w /\ (v < w)%Q.
Proof.
  intros d n ls D N T i j x y IJ X Y.
  destruct (lines_close (repeat d n)) as (ls' & T' & Ln & C); [apply Forall_forall; intros z Hz; apply repeat_spec in Hz; subst; exact D|rewrite repeat_length; exact N|].
  rewrite T in T'. injection T' as <-. rewrite repeat_length in Ln.
  assert (J : (j < n)%nat) by (rewrite <- Ln; apply nth_error_Some_lt in Y; exact Y).
  destruct (C i x X) as (v & V & (V1 & V2)). destruct (C j y Y) as (w & W & (W1 & W2)). exists v, w. split; [exact V|]. split; [exact W|].
  rewrite !(firstn_repeat d i n) in V1, V2 by lia. rewrite !(firstn_repeat d j n) in W1, W2 by lia.
  destruct j as [|j]; [lia|]. rewrite kinds_repeat in W1, W2. rewrite total_repeat in *.
  assert (SP : (0 < seconds d)%Q) by (destruct (seconds_range d D) as (Q & _); apply Qlt_le_trans with (tw (-63)); [apply tw_pos|exact Q]).
  assert (K : close 7 (1000 * (inject_Z (Z.of_nat i) * seconds d)) v).
  { destruct i as [|i]; [|rewrite kinds_repeat in V1, V2; split; assumption]. cbn [repeat] in *. change (kinds [] + 6)%nat with 6%nat in *. change (inject_Z (Z.of_nat 0)) with 0%Q in *. 
    split; ring_simplify in V1; ring_simplify in V2; ring_simplify; [exact V1|].
    assert (P6 : (0 < 1 - inject_Z (Z.of_nat 6) * unit64)%Q) by reflexivity. assert (P7 : (0 <= 1 - inject_Z (Z.of_nat 7) * unit64)%Q) by (vm_compute; discriminate).
    assert (V0 : (v <= 0)%Q). { apply Qmult_le_l with (1 - inject_Z (Z.of_nat 6) * unit64)%Q; [exact P6|]. ring_simplify. exact V2. }
    assert (G : ((1 - inject_Z (Z.of_nat 7) * unit64) * v <= (1 - inject_Z (Z.of_nat 7) * unit64) * 0)%Q).
    { setoid_replace ((1 - inject_Z (Z.of_nat 7) * unit64) * v)%Q with (v * (1 - inject_Z (Z.of_nat 7) * unit64))%Q by ring. setoid_replace ((1 - inject_Z (Z.of_nat 7) * unit64) * 0)%Q with (0 * (1 - inject_Z (Z.of_nat 7) * unit64))%Q by ring. apply Qmult_le_compat_r; assumption. }
    ring_simplify in G. exact G. }
  destruct K as (_ & K). clear V1 V2 C X Y.
  change (1 + 6)%nat with 7%nat in *. set (l := (1 - inject_Z (Z.of_nat 7) * unit64)%Q) in *.
  assert (Lpos : (0 < l)%Q) by reflexivity.
  (* l v <= 1000 i s and l 1000 (j+1) s <= w; l l (j+1) > i *)
  assert (G : (inject_Z (Z.of_nat i) < l * l * inject_Z (Z.of_nat (Datatypes.S j)))%Q).
  { assert (H1 : (inject_Z (Z.of_nat i) <= inject_Z (Z.of_nat (Datatypes.S j)) - 1)%Q) by (change 1%Q with (inject_Z 1); unfold Qminus; rewrite <- inject_Z_opp, <- inject_Z_plus; apply inj_le; lia).
    assert (H2 : (inject_Z (Z.of_nat (Datatypes.S j)) <= inject_Z (2 ^ 31))%Q) by (apply inj_le; lia).
    assert (H3 : (0 <= inject_Z (Z.of_nat (Datatypes.S j)))%Q) by (apply (inj_le 0); lia).
    assert (H4 : ((1 - l * l) * inject_Z (2 ^ 31) < 1)%Q) by (vm_compute; reflexivity). assert (H5 : (0 <= 1 - l * l)%Q) by (vm_compute; discriminate).
    generalize dependent (inject_Z (Z.of_nat (Datatypes.S j))). intros J1 _ _ H1 H2 H3.
    assert (H6 : ((1 - l * l) * J1 <= (1 - l * l) * inject_Z (2 ^ 31))%Q).
    { setoid_replace ((1 - l * l) * J1)%Q with (J1 * (1 - l * l))%Q by ring. setoid_replace ((1 - l * l) * inject_Z (2 ^ 31))%Q with (inject_Z (2 ^ 31) * (1 - l * l))%Q by ring. apply Qmult_le_compat_r; assumption. }
    assert (H7 : ((1 - l * l) * J1 == J1 - l * l * J1)%Q) by ring. rewrite H7 in H6. generalize dependent (l * l * J1)%Q. intros. lra. }
  apply Qmult_lt_l with l; [exact Lpos|]. apply Qle_lt_trans with (1000 * (inject_Z (Z.of_nat i) * seconds d))%Q; [exact K|].
  apply Qlt_le_trans with (l * (l * (1000 * (inject_Z (Z.of_nat (Datatypes.S j)) * seconds d))))%Q.
  - setoid_replace (1000 * (inject_Z (Z.of_nat i) * seconds d))%Q with (inject_Z (Z.of_nat i) * (1000 * seconds d))%Q by ring.
    setoid_replace (l * (l * (1000 * (inject_Z (Z.of_nat (Datatypes.S j)) * seconds d))))%Q with (l * l * inject_Z (Z.of_nat (Datatypes.S j)) * (1000 * seconds d))%Q by ring.
    apply Qmult_lt_r; [|exact G]. apply Qmult_lt_0_compat; [reflexivity|exact SP].
  - rewrite (Qmult_comm l (l * _)), (Qmult_comm l w). apply Qmult_le_compat_r; [exact W1|apply Qlt_le_weak; exact Lpos].
Qed.
(** Missing and impossible durations. *)
Lemma stops : forall l p rest, Forall durationIs l -> durationOf p = None ->
  exists ls, timecodes [] (map propsOf l ++ p :: rest) = (ls, true) /\ length ls = Datatypes.S (length l) /\ fst (timecodes [] (map propsOf l)) = firstn (length l) ls.
Proof.
  intros l p rest F B. rewrite timecodes_lines by exact F. cbn [timecodes]. rewrite B. cbn [fst snd]. eexists. split; [reflexivity|]. split; [rewrite app_length, map_length, seq_length; cbn [length]; lia|].
  pose proof (timecodes_lines l [] [] F) as T. rewrite app_nil_r in T. rewrite T. cbn [timecodes fst snd]. rewrite app_nil_r.
  rewrite firstn_app, map_length, seq_length, Nat.sub_diag, firstn_O, app_nil_r. symmetry. apply firstn_all2. rewrite map_length, seq_length. lia.
Qed.
Lemma bad_props : forall n d, durationOf (n, d) = None <-> match n, d with Some n, Some d => n <= 0 \/ d <= 0 | _, _ => True end.
Proof.
  intros [n|] [d|]; cbn [durationOf]; try (split; [auto|reflexivity]). destruct (Z.leb_spec d 0); destruct (Z.leb_spec n 0); cbn [orb]; split; try lia; try discriminate; auto.
Qed.
