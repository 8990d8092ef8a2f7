(** PlaneStats: the SSE2 kernels. *)
From Coq Require Import ZArith List Lia Bool Znumtheory.
From Verif Require Import Common ImageSpec PlaneMem Spatial Pixel PixelLemmas Generic GenericLemmas PlaneStatsSpec PlaneStats PlaneStatsLemmas.
Import ListNotations.
Open Scope Z_scope.

Definition readsV (k n w h : Z) (p : plane) (f : Z -> Z -> Z) : Prop :=
  (forall j y, 0 <= j < groups w n -> 0 <= y < h -> loadV k (Z.to_nat n) p (n * j) y = Ok (map (fun t => f (n * j + t) y) (zseq n))) /\
  forall x y, 0 <= f x y < 256 ^ k.
Definition readsVO (k n w h : Z) (o : option plane) (g : option (Z -> Z -> Z)) : Prop :=
  match o, g with Some q, Some g => readsV k n w h q g | None, None => True | _, _ => False end.

(** ** Lanes beyond the width are neutral *)
Section Neutral.
Variables (n m : Z) (F G : Z -> Z).
Hypothesis M : 0 <= m <= n.
Hypothesis E : forall t, 0 <= t < m -> F t = G t.
Lemma lanes_split : map F (zseq n) = map G (zseq m) ++ map (fun t => F (m + t)) (zseq (n - m)).
Proof.
  replace n with (m + (n - m)) at 1 by lia. rewrite zseq_app by lia. rewrite map_app, map_map. f_equal.
  apply map_ext_in. intros t T. apply In_zseq in T. apply E. lia.
Qed.
Lemma const_lanes : forall i, (forall t, m <= t < n -> F t = i) -> map (fun t => F (m + t)) (zseq (n - m)) = map (fun _ => i) (zseq (n - m)).
Proof. intros i N. apply map_ext_in. intros t T. apply In_zseq in T. apply N. lia. Qed.
Lemma mn_lanes : forall i, (forall t, m <= t < n -> F t = i) -> mn i (map F (zseq n)) = mn i (map G (zseq m)).
Proof.
  intros i N. rewrite lanes_split, (const_lanes i N), mn_app. replace (mn i (map (fun _ => i) (zseq (n - m)))) with i; [pose proof (mn_le i (map G (zseq m))); lia|].
  clear. induction (zseq (n - m)) as [|x l IH]; [reflexivity|]. cbn [map]. rewrite mn_cons. lia.
Qed.
Lemma mx_lanes : forall i j, (forall t, m <= t < n -> F t = j) -> j <= i -> mx i (map F (zseq n)) = mx i (map G (zseq m)).
Proof.
  intros i j N J. rewrite lanes_split, (const_lanes j N), mx_app. replace (mx i (map (fun _ => j) (zseq (n - m)))) with i; [pose proof (mx_ge i (map G (zseq m))); lia|].
  clear - J. induction (zseq (n - m)) as [|x l IH]; [reflexivity|]. cbn [map]. rewrite mx_cons. lia.
Qed.
Lemma sum_lanes : (forall t, m <= t < n -> F t = 0) -> sumOf (map F (zseq n)) = sumOf (map G (zseq m)).
Proof.
  intros N. rewrite lanes_split, (const_lanes 0 N), sumOf_app. replace (sumOf (map (fun _ => 0) (zseq (n - m)))) with 0; [lia|].
  clear. induction (zseq (n - m)) as [|x l IH]; [reflexivity|]. cbn [map]. rewrite sumOf_cons. lia.
Qed.
End Neutral.

Lemma keep_map : forall n w f, keep (maskOf n w) (map f (zseq n)) = map (fun t => if t <? w mod n then f t else 0) (zseq n).
Proof. intros n w f. unfold keep, maskOf. apply map2_map. Qed.
Lemma orOnes_map : forall ones n w f, orOnes ones (maskOf n w) (map f (zseq n)) = map (fun t => if t <? w mod n then f t else Z.lor (f t) ones) (zseq n).
Proof. intros ones n w f. unfold orOnes, maskOf. apply map2_map. Qed.

(** ** Horizontal reductions *)
Lemma firstn_map2 : forall A B C (f : A -> B -> C) n a b, firstn n (map2 f a b) = map2 f (firstn n a) (firstn n b).
Proof. intros A B C f. induction n as [|n IH]; intros a b; [reflexivity|]. destruct a as [|x a]; [reflexivity|]. destruct b as [|z b]; [reflexivity|]. cbn [map2 firstn]. rewrite IH. reflexivity. Qed.
Lemma srli_length : forall n v, (n <= length v)%nat -> length (srli n v) = length v.
Proof. intros n v L. unfold srli. rewrite app_length, skipn_length, repeat_length. lia. Qed.
Lemma firstn_srli : forall n v, (2 * n <= length v)%nat -> firstn n (srli n v) = firstn n (skipn n v).
Proof. intros n v L. unfold srli. rewrite firstn_app, skipn_length. replace (n - (length v - n))%nat with O by lia. cbn [firstn]. apply app_nil_r. Qed.
Lemma firstn_twice : forall A n (v : list A), firstn (2 * n) v = firstn n v ++ firstn n (skipn n v).
Proof. intros A n v. replace (2 * n)%nat with (n + n)%nat by lia. revert v. generalize n at 2 4. induction n as [|n IH]; intros q v; [reflexivity|]. destruct v; [destruct q; reflexivity|]. cbn [plus firstn skipn app]. rewrite IH. reflexivity. Qed.

Section Red.
Variables (f : Z -> Z -> Z) (red : list Z -> Z).
Hypothesis R : forall a b, length a = length b -> red (map2 f a b) = red (a ++ b).
Lemma hstep : forall n v, (2 * n <= length v)%nat ->
  length (map2 f v (srli n v)) = length v /\ red (firstn n (map2 f v (srli n v))) = red (firstn (2 * n) v).
Proof.
  intros n v L. split; [apply map2_length; rewrite srli_length by lia; reflexivity|].
  rewrite firstn_map2, firstn_srli, firstn_twice by lia. apply R. rewrite !firstn_length, skipn_length. lia.
Qed.
End Red.
Lemma mn_red : forall i a b, length a = length b -> mn i (map2 Z.min a b) = mn i (a ++ b).
Proof. intros i a b L. rewrite mn_map2, mn_app by exact L. reflexivity. Qed.
Lemma mx_red : forall i a b, length a = length b -> mx i (map2 Z.max a b) = mx i (a ++ b).
Proof. intros i a b L. rewrite mx_map2, mx_app by exact L. reflexivity. Qed.

Lemma fold_steps : forall f (red : list Z -> Z), (forall a b, length a = length b -> red (map2 f a b) = red (a ++ b)) -> forall k v, (2 ^ k <= length v)%nat ->
  forall steps, steps = map (fun i => (2 ^ i)%nat) (rev (seq 0 k)) -> red (firstn 1 (fold_left (fun v n => map2 f v (srli n v)) steps v)) = red (firstn (2 ^ k) v) /\
    length (fold_left (fun v n => map2 f v (srli n v)) steps v) = length v.
Proof.
  intros f red R. induction k as [|k IH]; intros v L steps ->; [split; reflexivity|]. rewrite seq_S, rev_app_distr. cbn [rev app map fold_left plus].
  cbn [Nat.pow] in L. assert (L2 : (2 * 2 ^ k <= length v)%nat) by lia. destruct (hstep f red R (2 ^ k)%nat v L2) as (S1 & S2).
  destruct (IH (map2 f v (srli (2 ^ k) v)) ltac:(lia) _ eq_refl) as (I1 & I2). rewrite I1, I2. split; [exact S2 | exact S1].
Qed.
Lemma hred_min : forall k v steps hi, length v = (2 ^ k)%nat -> steps = map (fun i => (2 ^ i)%nat) (rev (seq 0 k)) -> Forall (fun x => x <= hi) v -> hred Z.min v steps = mn hi v.
Proof.
  intros k v steps hi L S B. unfold hred. pose proof (fun i => fold_steps Z.min (mn i) (mn_red i) k v ltac:(lia) steps S) as FS. clear S.
  destruct (FS 0) as (_ & LN). assert (P : (1 <= 2 ^ k)%nat) by (clear; induction k; cbn; lia).
  destruct (fold_left _ steps v) as [|x r] eqn:FE; [cbn in LN; lia|]. cbn [hd firstn] in *.
  assert (NE : v <> []) by (intros C; subst v; cbn in L; lia).
  assert (ALL : forall i, Z.min x i = mn i v) by (intros i; destruct (FS i) as (Q & _); rewrite <- L in Q; rewrite firstn_all in Q; exact Q).
  assert (H1 : mn hi v <= x) by (rewrite <- ALL; lia).
  destruct (mn_in (Z.max x hi) v) as (I1 & I2); [intros y Y; rewrite Forall_forall in B; specialize (B y Y); cbv beta in B; lia | exact NE |].
  rewrite <- ALL in I1, I2. rewrite Z.min_l in I1, I2 by lia. rewrite Forall_forall in B. specialize (B x I1). cbv beta in B. rewrite <- ALL. lia.
Qed.
Lemma hred_max : forall k v steps lo, length v = (2 ^ k)%nat -> steps = map (fun i => (2 ^ i)%nat) (rev (seq 0 k)) -> Forall (fun x => lo <= x) v -> hred Z.max v steps = mx lo v.
Proof.
  intros k v steps lo L S B. unfold hred. pose proof (fun i => fold_steps Z.max (mx i) (mx_red i) k v ltac:(lia) steps S) as FS. clear S.
  destruct (FS 0) as (_ & LN). assert (P : (1 <= 2 ^ k)%nat) by (clear; induction k; cbn; lia).
  destruct (fold_left _ steps v) as [|x r] eqn:FE; [cbn in LN; lia|]. cbn [hd firstn] in *.
  assert (NE : v <> []) by (intros C; subst v; cbn in L; lia).
  assert (ALL : forall i, Z.max x i = mx i v) by (intros i; destruct (FS i) as (Q & _); rewrite <- L in Q; rewrite firstn_all in Q; exact Q).
  destruct (mx_in (Z.min x lo) v) as (I1 & I2); [intros y Y; rewrite Forall_forall in B; specialize (B y Y); cbv beta in B; lia | exact NE |].
  rewrite <- ALL in I1, I2. rewrite Z.max_l in I1, I2 by lia. rewrite Forall_forall in B. specialize (B x I1). cbv beta in B. rewrite <- ALL. lia.
Qed.

Lemma Forall_map2 : forall A B C (f : A -> B -> C) (P : A -> Prop) (Q : B -> Prop) (R : C -> Prop) a b, (forall x y, P x -> Q y -> R (f x y)) -> Forall P a -> Forall Q b -> Forall R (map2 f a b).
Proof. intros A B C f P Q R a b H Pa. revert b. induction Pa as [|x a Px _ IH]; intros b Qb; [constructor|]. destruct Qb; [constructor|]. cbn [map2]. constructor; auto. Qed.
Lemma Forall_lanes : forall n (F : Z -> Z) (P : Z -> Prop), (forall t, 0 <= t < n -> P (F t)) -> Forall P (map F (zseq n)).
Proof. intros n F P H. apply Forall_forall. intros x X. apply in_map_iff in X. destruct X as (t & <- & T). apply In_zseq in T. auto. Qed.

(** ** Bytes *)
Definition byteR (x : Z) : Prop := 0 <= x <= 255.
Definition agreesB (l : list (Z * Z)) (s : byteState) : Prop :=
  (length (bs_min s) = 16%nat /\ length (bs_max s) = 16%nat /\ length (bs_acc s) = 2%nat /\ length (bs_diff s) = 2%nat) /\ Forall byteR (bs_min s) /\ Forall byteR (bs_max s) /\
  mn 255 (bs_min s) = mn 255 (map fst l) /\ mx 0 (bs_max s) = mx 0 (map fst l) /\ cong (sumOf (bs_acc s)) (sumOf (map fst l)) /\ cong (sumOf (bs_diff s)) (sumOf (map snd l)).

Lemma sad_sum : forall a b, length (sad a b) = 2%nat /\ sumOf (sad a b) = sumOf (map2 (fun x y => Z.abs (x - y)) a b).
Proof.
  intros a b. split; [reflexivity|]. unfold sad. set (d := map2 _ a b). rewrite !sumOf_cons. change (sumOf []) with 0.
  change (sumOf (firstn 8 d) + (sumOf (skipn 8 d) + 0) = sumOf d). rewrite <- (firstn_skipn 8 d) at 3. rewrite sumOf_app. lia.
Qed.

Lemma byteStep_spec : forall m Fmin F (T : option (Z -> Z)) (c : Z -> Z * Z) l s, 0 <= m <= 16 ->
  (forall t, 0 <= t < m -> Fmin t = fst (c t) /\ F t = fst (c t) /\ 0 <= fst (c t) <= 255 /\ match T with Some T => Z.abs (F t - T t) = snd (c t) | None => snd (c t) = 0 end) ->
  (forall t, m <= t < 16 -> Fmin t = 255 /\ F t = 0 /\ match T with Some T => T t = 0 | None => True end) ->
  agreesB l s -> agreesB (l ++ map c (zseq m)) (byteStep (map Fmin (zseq 16)) (map F (zseq 16)) (option_map (fun T => map T (zseq 16)) T) s).
Proof.
  intros m Fmin F T c l s M IN OUT ((L1 & L2 & L3 & L4) & R1 & R2 & I1 & I2 & I3 & I4).
  assert (FB : forall t, 0 <= t < 16 -> byteR (F t) /\ byteR (Fmin t)).
  { intros t Ht. unfold byteR. destruct (Z_lt_le_dec t m) as [Q|Q]; [destruct (IN t ltac:(lia)) as (A1 & A2 & A3 & _); rewrite A1, A2 | destruct (OUT t ltac:(lia)) as (A1 & A2 & _); rewrite A1, A2]; lia. }
  assert (LL : forall (f : Z -> Z), length (map f (zseq 16)) = 16%nat) by reflexivity.
  unfold agreesB, byteStep. cbn [bs_min bs_max bs_acc bs_diff]. rewrite !map_app, mn_app, mx_app, !sumOf_app, !map_map.
  split; [|split; [|split; [|split; [|split; [|split]]]]].
  - rewrite !map2_length by (rewrite LL; assumption). rewrite L1, L2. split; [reflexivity|]. split; [reflexivity|].
    unfold add64v. rewrite map2_length by (rewrite L3; reflexivity). split; [exact L3|]. destruct T; cbn [option_map]; [rewrite map2_length by (rewrite L4; reflexivity)|]; exact L4.
  - apply Forall_map2 with byteR byteR; [unfold byteR; lia | exact R1 | apply Forall_lanes; intros; apply FB; assumption].
  - apply Forall_map2 with byteR byteR; [unfold byteR; lia | exact R2 | apply Forall_lanes; intros; apply FB; assumption].
  - rewrite mn_map2 by (rewrite LL; exact L1). rewrite I1. f_equal. apply mn_lanes; [lia | intros t Ht; apply IN; lia | intros t Ht; apply OUT; lia].
  - rewrite mx_map2 by (rewrite LL; exact L2). rewrite I2. f_equal. apply mx_lanes with 0; [lia | intros t Ht; apply IN; lia | intros t Ht; apply OUT; lia | lia].
  - unfold add64v. eapply cong_trans; [apply (cong_sum _ _ _ (fun x y => cong_wrapu (x + y))); rewrite L3; reflexivity|].
    apply cong_add; [exact I3|]. destruct (sad_sum (map F (zseq 16)) (repeat 0 16)) as (_ & ->). change (repeat 0 16) with (map (fun _ : Z => 0) (zseq 16)). rewrite map2_map.
    erewrite (sum_lanes 16 m (fun x => Z.abs (F x - 0)) (fun t => fst (c t))); [apply cong_refl | lia | |].
    + intros t Ht. destruct (IN t Ht) as (_ & A & B & _). cbv beta. rewrite A. lia.
    + intros t Ht. destruct (OUT t Ht) as (_ & A & _). cbv beta. rewrite A. reflexivity.
  - destruct T as [T|]; cbn [option_map].
    + unfold add64v. eapply cong_trans; [apply (cong_sum _ _ _ (fun x y => cong_wrapu (x + y))); rewrite L4; reflexivity|].
      apply cong_add; [exact I4|]. destruct (sad_sum (map F (zseq 16)) (map T (zseq 16))) as (_ & ->). rewrite map2_map.
      erewrite (sum_lanes 16 m (fun x => Z.abs (F x - T x)) (fun t => snd (c t))); [apply cong_refl | lia | |].
      * intros t Ht. apply (IN t Ht).
      * intros t Ht. destruct (OUT t Ht) as (_ & A & B). cbv beta. rewrite A, B. reflexivity.
    + replace (sumOf (map (fun x => snd (c x)) (zseq m))) with 0; [rewrite Z.add_0_r; exact I4|].
      symmetry. rewrite (sum_lanes m 0 (fun x => snd (c x)) (fun x => snd (c x))); [reflexivity | lia | reflexivity | intros t Ht; apply (IN t Ht)].
Qed.

(** One row by groups of [n] lanes and a masked rest. *)
Lemma row_inv : forall {S A} n w (I : list A -> S -> Prop) (J : list A -> S -> Prop) (c : Z -> A) (full : Z -> S -> outcome S) (tail : S -> outcome S) l s0, 0 < n -> 0 <= w ->
  J l s0 ->
  (forall j q s, 0 <= j < w / n -> J q s -> exists s', full j s = Ok s' /\ J (q ++ map (fun t => c (n * j + t)) (zseq n)) s') ->
  (forall q s, J q s -> exists s', (if w mod n =? 0 then tail s else tail s) = Ok s' /\ I (q ++ map (fun t => c (n * (w / n) + t)) (zseq (w mod n))) s') ->
  exists s', obind (forZ (w / n) full s0) tail = Ok s' /\ I (l ++ map c (zseq w)) s'.
Proof.
  intros S A n w I J c full tail l s0 N W J0 FU TA.
  pose proof (Z.div_mod w n ltac:(lia)) as DM. pose proof (Z.mod_pos_bound w n N) as MB. assert (D0 : 0 <= w / n) by (apply Z.div_pos; lia).
  destruct (forZ_inv (fun j s => J (l ++ map c (zseq (n * j))) s) full (w / n) s0 D0) as (s & E & Js).
  - rewrite Z.mul_0_r. cbn [zseq Z.to_nat seq map]. rewrite app_nil_r. exact J0.
  - intros j s Hj Js. destruct (FU j _ s Hj Js) as (s' & E & Js'). exists s'. split; [exact E|].
    replace (n * (j + 1)) with (n * j + n) by ring. rewrite zseq_app by nia. rewrite map_app, map_map, app_assoc. exact Js'.
  - rewrite E. cbn [obind]. destruct (TA _ s Js) as (s' & E' & Is'). exists s'. split; [destruct (w mod n =? 0) in E'; exact E'|].
    rewrite DM at 1. rewrite zseq_app by nia. rewrite map_app, map_map, app_assoc. exact Is'.
Qed.

Lemma loads : forall k n w h o g j y, readsVO k n w h o g -> 0 <= j < groups w n -> 0 <= y < h ->
  loadOtherV k (Z.to_nat n) o (n * j) y = Ok (option_map (fun g => map (fun t => g (n * j + t) y) (zseq n)) g).
Proof.
  intros k n w h o g j y R J Y. unfold readsVO, loadOtherV in *. destruct o as [q|]; destruct g as [g|]; try contradiction; [|reflexivity].
  destruct R as (R & _). rewrite (R j y J Y). reflexivity.
Qed.
Lemma groups_bound : forall w n, 0 < n -> 0 <= w -> w / n <= groups w n /\ (w mod n <> 0 -> w / n < groups w n).
Proof.
  intros w n N W. unfold groups. pose proof (Z.div_mod w n ltac:(lia)). pose proof (Z.mod_pos_bound w n N). split.
  - apply Z.div_le_mono; lia.
  - intros Q. assert (w / n + 1 <= (w + n - 1) / n); [|lia]. apply Z.div_le_lower_bound; lia.
Qed.

Theorem byteSSE2_spec : forall w h p o f g, 0 < w -> 0 < h -> w * h <= 2 ^ 46 -> readsV 1 16 w h p f -> readsVO 1 16 w h o g ->
  exists s, byteSSE2 w h p o = Ok s /\ statsOf w h f g s.
Proof.
  intros w h p o f g W H WH R RO. unfold byteSSE2. pose proof (groups_bound w 16 ltac:(lia) ltac:(lia)) as (GB1 & GB2). pose proof (Z.mod_pos_bound w 16 ltac:(lia)) as MB.
  pose proof R as (RL & RR). assert (RG : match g with Some g => forall x y, 0 <= g x y < 256 | None => True end) by (unfold readsVO in RO; destruct o, g; try contradiction; [apply RO | exact Logic.I]).
  change (256 ^ 1) with 256 in RR.
  match goal with |- context [forZ h ?row ?s0] => destruct (rows_inv w h ltac:(lia) agreesB (cell f g) row s0) as (s & E & I) end.
  - split; [repeat split|]. split; [apply Forall_forall; intros x X; apply repeat_spec in X; unfold byteR; lia|].
    split; [apply Forall_forall; intros x X; apply repeat_spec in X; unfold byteR; lia|]. repeat split; apply cong_refl.
  - intros y l s Y I.
    match goal with |- exists s', obind (forZ _ ?full s) ?tail = _ /\ _ => apply (row_inv 16 w agreesB agreesB (fun x => cell f g x y) full tail l s) end; [lia | lia | exact I | |].
    + intros j q t J Iq. change 16%nat with (Z.to_nat 16). rewrite (RL j y ltac:(lia) Y). cbn [obind]. rewrite (loads 1 16 w h o g j y RO ltac:(lia) Y). cbn [obind].
      eexists. split; [reflexivity|]. replace (option_map (fun g => map (fun t => g (16 * j + t) y) (zseq 16)) g) with (option_map (fun T => map T (zseq 16)) (option_map (fun g t => g (16 * j + t) y) g)) by (destruct g; reflexivity).
      apply byteStep_spec; [lia| |intros; lia|exact Iq]. intros t0 T0. cbn [cell fst snd]. split; [reflexivity|]. split; [reflexivity|]. split; [pose proof (RR (16 * j + t0) y); lia|].
      destruct g; reflexivity.
    + intros q t Iq. destruct (Z.eqb_spec (w mod 16) 0) as [Q|Q].
      * eexists. split; [reflexivity|]. rewrite Q. cbn [zseq Z.to_nat seq map]. rewrite app_nil_r. exact Iq.
      * specialize (GB2 Q). assert (D0 : 0 <= w / 16) by (apply Z.div_pos; lia). change 16%nat with (Z.to_nat 16). rewrite (RL (w / 16) y ltac:(lia) Y). cbn [obind]. rewrite (loads 1 16 w h o g (w / 16) y RO ltac:(lia) Y). cbn [obind].
        eexists. split; [reflexivity|]. rewrite keep_map, orOnes_map.
        match goal with |- agreesB _ (byteStep _ _ ?t0 _) => replace t0 with (option_map (fun T => map T (zseq 16)) (option_map (fun g t => if t <? w mod 16 then g (16 * (w / 16) + t) y else 0) g)) end.
        2:{ destruct g as [g'|]; [|reflexivity]. cbn [option_map]. rewrite keep_map. reflexivity. }
        apply byteStep_spec; [lia| | |exact Iq].
        -- intros t0 T0. destruct (Z.ltb_spec t0 (w mod 16)); [|lia]. cbn [cell fst snd]. split; [reflexivity|]. split; [reflexivity|].
           split; [pose proof (RR (16 * (w / 16) + t0) y); lia|]. destruct g; cbn [option_map]; [|reflexivity]. destruct (Z.ltb_spec t0 (w mod 16)); [reflexivity | lia].
        -- intros t0 T0. destruct (Z.ltb_spec t0 (w mod 16)); [lia|]. split; [reflexivity|]. split; [reflexivity|].
           destruct g; cbn [option_map]; [|exact Logic.I]. destruct (Z.ltb_spec t0 (w mod 16)); [lia | reflexivity].
  - rewrite E. cbn [obind]. eexists. split; [reflexivity|]. destruct I as ((L1 & L2 & L3 & L4) & R1 & R2 & I1 & I2 & I3 & I4).
    assert (T2 : forall l, length l = 2%nat -> cong (hd 0 l + hd 0 (srli 1 l)) (sumOf l)).
    { intros [|a [|b [|c l]]] L; try discriminate. cbn [hd srli skipn repeat app sumOf fold_right]. replace (a + (b + 0)) with (a + b) by ring. apply cong_refl. }
    assert (LB : forall x, byteR x -> Z.land x 255 = x).
    { intros x X. change 255 with (Z.ones 8). rewrite Z.land_ones by lia. apply Z.mod_small. unfold byteR in X. lia. }
    assert (VB : Forall (fun x => 0 <= x <= 255) (map fst (overImage w h (cell f g)))).
    { apply Forall_forall. intros x X. rewrite over_map in X. apply over_in in X. destruct X as (u & v & _ & _ & ->). cbn [cell fst]. pose proof (RR u v). lia. }
    assert (MNB : byteR (mn 255 (map fst (overImage w h (cell f g))))).
    { destruct (mn_in 255 (map fst (overImage w h (cell f g)))) as (A & _); [intros v V; rewrite Forall_forall in VB; apply VB; exact V | rewrite over_map; apply over_nonempty; lia |].
      rewrite Forall_forall in VB. apply VB. exact A. }
    assert (MXB : byteR (mx 0 (map fst (overImage w h (cell f g))))).
    { destruct (mx_in 0 (map fst (overImage w h (cell f g)))) as (A & _); [intros v V; rewrite Forall_forall in VB; apply VB; exact V | rewrite over_map; apply over_nonempty; lia |].
      rewrite Forall_forall in VB. apply VB. exact A. }
    apply (statsOf_cells w h f g _ 255); auto; [lia | | | | | ]; cbn [st_min st_max st_acc st_diff].
    + intros x y X Y. pose proof (RR x y). split; [lia|]. destruct g as [g|]; [|exact Logic.I]. pose proof (RG x y). lia.
    + exists 255. split; [lia|]. rewrite (hred_min 4 _ _ 255); [rewrite I1; apply LB; exact MNB | exact L1 | reflexivity | eapply Forall_impl; [|exact R1]; unfold byteR; intros; lia].
    + rewrite (hred_max 4 _ _ 0); [rewrite I2; apply LB; exact MXB | exact L2 | reflexivity | eapply Forall_impl; [|exact R2]; unfold byteR; intros; lia].
    + apply cong_mod. eapply cong_trans; [apply T2; exact L3 | exact I3].
    + apply cong_mod. eapply cong_trans; [apply T2; exact L4 | exact I4].
Qed.
