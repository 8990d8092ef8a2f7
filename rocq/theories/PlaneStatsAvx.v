(** PlaneStats: the AVX2 kernels. *)
From Coq Require Import ZArith List Lia Bool Znumtheory.
From Verif Require Import Common ImageSpec PlaneMem Spatial Pixel PixelLemmas Generic GenericLemmas PlaneStatsSpec PlaneStats PlaneStatsLemmas PlaneStatsVec PlaneStatsWord.
Import ListNotations.
Open Scope Z_scope.

Lemma skipn_map2 : forall A B C (f : A -> B -> C) n a b, length a = length b -> skipn n (map2 f a b) = map2 f (skipn n a) (skipn n b).
Proof. intros A B C f. induction n as [|n IH]; intros a b L; [reflexivity|]. destruct a as [|x a]; destruct b as [|z b]; try discriminate; [reflexivity|]. cbn [map2 skipn]. apply IH. cbn in L. lia. Qed.
Lemma halves_length : forall (f : Z -> Z -> Z) n v, length v = (2 * n)%nat -> length (map2 f (firstn n v) (skipn n v)) = n.
Proof. intros f n v L. rewrite map2_length; rewrite !firstn_length; [lia|]. rewrite skipn_length. lia. Qed.
Lemma Forall_halves : forall (f : Z -> Z -> Z) (P : Z -> Prop) n v, (forall x y, P x -> P y -> P (f x y)) -> Forall P v -> Forall P (map2 f (firstn n v) (skipn n v)).
Proof. intros f P n v H F. rewrite <- (firstn_skipn n v) in F. apply Forall_app in F. destruct F. apply Forall_map2 with P P; auto. Qed.
Lemma hredHalves_min : forall k v n steps hi, length v = (2 * n)%nat -> n = (2 ^ k)%nat -> steps = map (fun i => (2 ^ i)%nat) (rev (seq 0 k)) -> Forall (fun x => x <= hi) v -> hredHalves Z.min v n steps = mn hi v.
Proof.
  intros k v n steps hi L N S F. unfold hredHalves. rewrite (hred_min k _ _ hi); [|rewrite halves_length; assumption | exact S | apply Forall_halves; [intros; lia | exact F]].
  rewrite mn_red by (rewrite firstn_length, skipn_length; lia). rewrite firstn_skipn. reflexivity.
Qed.
Lemma hredHalves_max : forall k v n steps lo, length v = (2 * n)%nat -> n = (2 ^ k)%nat -> steps = map (fun i => (2 ^ i)%nat) (rev (seq 0 k)) -> Forall (fun x => lo <= x) v -> hredHalves Z.max v n steps = mx lo v.
Proof.
  intros k v n steps lo L N S F. unfold hredHalves. rewrite (hred_max k _ _ lo); [|rewrite halves_length; assumption | exact S | apply Forall_halves; [intros; lia | exact F]].
  rewrite mx_red by (rewrite firstn_length, skipn_length; lia). rewrite firstn_skipn. reflexivity.
Qed.
Lemma sad4_sum : forall a b, length a = length b -> length (sad4 a b) = 4%nat /\ sumOf (sad4 a b) = sumOf (map2 (fun x y => Z.abs (x - y)) a b).
Proof.
  intros a b L. split; [reflexivity|]. unfold sad4. rewrite sumOf_app. destruct (sad_sum (firstn 16 a) (firstn 16 b)) as (_ & ->). destruct (sad_sum (skipn 16 a) (skipn 16 b)) as (_ & ->).
  rewrite <- firstn_map2, <- skipn_map2 by exact L. rewrite <- sumOf_app, firstn_skipn. reflexivity.
Qed.
Lemma hadd64_sum : forall l, length l = 4%nat -> exists v, hadd64 l = wrapu64 v /\ cong v (sumOf l).
Proof.
  intros [|a [|b [|c [|d [|e l]]]]] L; try discriminate. unfold hadd64, add64v. cbn [firstn skipn map2 srli repeat app hd]. eexists. split; [reflexivity|].
  eapply cong_trans; [apply cong_add; apply cong_wrapu|]. rewrite !sumOf_cons. change (sumOf []) with 0. replace (a + c + (b + d)) with (a + (b + (c + (d + 0)))) by ring. apply cong_refl.
Qed.

(** ** Bytes *)
Definition agreesB4 (l : list (Z * Z)) (s : byteState) : Prop :=
  (length (bs_min s) = 32%nat /\ length (bs_max s) = 32%nat /\ length (bs_acc s) = 4%nat /\ length (bs_diff s) = 4%nat) /\ Forall byteR (bs_min s) /\ Forall byteR (bs_max s) /\
  mn 255 (bs_min s) = mn 255 (map fst l) /\ mx 0 (bs_max s) = mx 0 (map fst l) /\ cong (sumOf (bs_acc s)) (sumOf (map fst l)) /\ cong (sumOf (bs_diff s)) (sumOf (map snd l)).

Lemma byteStep4_spec : forall m Fmin F (T : option (Z -> Z)) (c : Z -> Z * Z) l s, 0 <= m <= 32 ->
  (forall t, 0 <= t < m -> Fmin t = fst (c t) /\ F t = fst (c t) /\ 0 <= fst (c t) <= 255 /\ match T with Some T => Z.abs (F t - T t) = snd (c t) | None => snd (c t) = 0 end) ->
  (forall t, m <= t < 32 -> Fmin t = 255 /\ F t = 0 /\ match T with Some T => T t = 0 | None => True end) ->
  agreesB4 l s -> agreesB4 (l ++ map c (zseq m)) (byteStep4 (map Fmin (zseq 32)) (map F (zseq 32)) (option_map (fun T => map T (zseq 32)) T) s).
Proof.
  intros m Fmin F T c l s M IN OUT ((L1 & L2 & L3 & L4) & R1 & R2 & I1 & I2 & I3 & I4).
  assert (FB : forall t, 0 <= t < 32 -> byteR (F t) /\ byteR (Fmin t)).
  { intros t Ht. unfold byteR. destruct (Z_lt_le_dec t m) as [Q|Q]; [destruct (IN t ltac:(lia)) as (A1 & A2 & A3 & _); rewrite A1, A2 | destruct (OUT t ltac:(lia)) as (A1 & A2 & _); rewrite A1, A2]; lia. }
  assert (LL : forall (f : Z -> Z), length (map f (zseq 32)) = 32%nat) by reflexivity.
  unfold agreesB4, byteStep4. cbn [bs_min bs_max bs_acc bs_diff]. rewrite !map_app, mn_app, mx_app, !sumOf_app, !map_map.
  split; [|split; [|split; [|split; [|split; [|split]]]]].
  - rewrite !map2_length by (rewrite LL; assumption). rewrite L1, L2. split; [reflexivity|]. split; [reflexivity|].
    unfold add64v. rewrite map2_length by (rewrite L3; reflexivity). split; [exact L3|]. destruct T; cbn [option_map]; [rewrite map2_length by (rewrite L4; reflexivity)|]; exact L4.
  - apply Forall_map2 with byteR byteR; [unfold byteR; lia | exact R1 | apply Forall_lanes; intros; apply FB; assumption].
  - apply Forall_map2 with byteR byteR; [unfold byteR; lia | exact R2 | apply Forall_lanes; intros; apply FB; assumption].
  - rewrite mn_map2 by (rewrite LL; exact L1). rewrite I1. f_equal. apply mn_lanes; [lia | intros t Ht; apply IN; lia | intros t Ht; apply OUT; lia].
  - rewrite mx_map2 by (rewrite LL; exact L2). rewrite I2. f_equal. apply mx_lanes with 0; [lia | intros t Ht; apply IN; lia | intros t Ht; apply OUT; lia | lia].
  - unfold add64v. eapply cong_trans; [apply (cong_sum _ _ _ (fun x y => cong_wrapu (x + y))); rewrite L3; reflexivity|].
    apply cong_add; [exact I3|]. destruct (sad4_sum (map F (zseq 32)) (repeat 0 32) eq_refl) as (_ & ->). change (repeat 0 32) with (map (fun _ : Z => 0) (zseq 32)). rewrite map2_map.
    erewrite (sum_lanes 32 m (fun x => Z.abs (F x - 0)) (fun t => fst (c t))); [apply cong_refl | lia | |].
    + intros t Ht. destruct (IN t Ht) as (_ & A & B & _). cbv beta. rewrite A. lia.
    + intros t Ht. destruct (OUT t Ht) as (_ & A & _). cbv beta. rewrite A. reflexivity.
  - destruct T as [T|]; cbn [option_map].
    + unfold add64v. eapply cong_trans; [apply (cong_sum _ _ _ (fun x y => cong_wrapu (x + y))); rewrite L4; reflexivity|].
      apply cong_add; [exact I4|]. destruct (sad4_sum (map F (zseq 32)) (map T (zseq 32)) eq_refl) as (_ & ->). rewrite map2_map.
      erewrite (sum_lanes 32 m (fun x => Z.abs (F x - T x)) (fun t => snd (c t))); [apply cong_refl | lia | |].
      * intros t Ht. apply (IN t Ht).
      * intros t Ht. destruct (OUT t Ht) as (_ & A & B). cbv beta. rewrite A, B. reflexivity.
    + replace (sumOf (map (fun x => snd (c x)) (zseq m))) with 0; [rewrite Z.add_0_r; exact I4|].
      symmetry. rewrite (sum_lanes m 0 (fun x => snd (c x)) (fun x => snd (c x))); [reflexivity | lia | reflexivity | intros t Ht; apply (IN t Ht)].
Qed.

Theorem byteAVX2_spec : forall w h p o f g, 0 < w -> 0 < h -> w * h <= 2 ^ 46 -> readsV 1 32 w h p f -> readsVO 1 32 w h o g ->
  exists s, byteAVX2 w h p o = Ok s /\ statsOf w h f g s.
Proof.
  intros w h p o f g W H WH R RO. unfold byteAVX2. pose proof (groups_bound w 32 ltac:(lia) ltac:(lia)) as (GB1 & GB2). pose proof (Z.mod_pos_bound w 32 ltac:(lia)) as MB.
  pose proof R as (RL & RR). assert (RG : match g with Some g => forall x y, 0 <= g x y < 256 | None => True end) by (unfold readsVO in RO; destruct o, g; try contradiction; [apply RO | exact Logic.I]).
  change (256 ^ 1) with 256 in RR.
  match goal with |- context [forZ h ?row ?s0] => destruct (rows_inv w h ltac:(lia) agreesB4 (cell f g) row s0) as (s & E & I) end.
  - split; [repeat split|]. split; [apply Forall_forall; intros x X; apply repeat_spec in X; unfold byteR; lia|].
    split; [apply Forall_forall; intros x X; apply repeat_spec in X; unfold byteR; lia|]. repeat split; apply cong_refl.
  - intros y l s Y I.
    match goal with |- exists s', obind (forZ _ ?full s) ?tail = _ /\ _ => apply (row_inv 32 w agreesB4 agreesB4 (fun x => cell f g x y) full tail l s) end; [lia | lia | exact I | |].
    + intros j q t J Iq. change 32%nat with (Z.to_nat 32). rewrite (RL j y ltac:(lia) Y). cbn [obind]. rewrite (loads 1 32 w h o g j y RO ltac:(lia) Y). cbn [obind].
      eexists. split; [reflexivity|]. replace (option_map (fun g => map (fun t => g (32 * j + t) y) (zseq 32)) g) with (option_map (fun T => map T (zseq 32)) (option_map (fun g t => g (32 * j + t) y) g)) by (destruct g; reflexivity).
      apply byteStep4_spec; [lia| |intros; lia|exact Iq]. intros t0 T0. cbn [cell fst snd]. split; [reflexivity|]. split; [reflexivity|]. split; [pose proof (RR (32 * j + t0) y); lia|].
      destruct g; reflexivity.
    + intros q t Iq. destruct (Z.eqb_spec (w mod 32) 0) as [Q|Q].
      * eexists. split; [reflexivity|]. rewrite Q. cbn [zseq Z.to_nat seq map]. rewrite app_nil_r. exact Iq.
      * specialize (GB2 Q). assert (D0 : 0 <= w / 32) by (apply Z.div_pos; lia). change 32%nat with (Z.to_nat 32). rewrite (RL (w / 32) y ltac:(lia) Y). cbn [obind]. rewrite (loads 1 32 w h o g (w / 32) y RO ltac:(lia) Y). cbn [obind].
        eexists. split; [reflexivity|]. rewrite keep_map, orOnes_map.
        match goal with |- agreesB4 _ (byteStep4 _ _ ?t0 _) => replace t0 with (option_map (fun T => map T (zseq 32)) (option_map (fun g t => if t <? w mod 32 then g (32 * (w / 32) + t) y else 0) g)) end.
        2:{ destruct g as [g'|]; [|reflexivity]. cbn [option_map]. rewrite keep_map. reflexivity. }
        apply byteStep4_spec; [lia| | |exact Iq].
        -- intros t0 T0. destruct (Z.ltb_spec t0 (w mod 32)); [|lia]. cbn [cell fst snd]. split; [reflexivity|]. split; [reflexivity|].
           split; [pose proof (RR (32 * (w / 32) + t0) y); lia|]. destruct g; cbn [option_map]; [|reflexivity]. destruct (Z.ltb_spec t0 (w mod 32)); [reflexivity | lia].
        -- intros t0 T0. destruct (Z.ltb_spec t0 (w mod 32)); [lia|]. split; [reflexivity|]. split; [reflexivity|].
           destruct g; cbn [option_map]; [|exact Logic.I]. destruct (Z.ltb_spec t0 (w mod 32)); [lia | reflexivity].
  - rewrite E. cbn [obind]. eexists. split; [reflexivity|]. destruct I as ((L1 & L2 & L3 & L4) & R1 & R2 & I1 & I2 & I3 & I4).
    assert (LB : forall x, byteR x -> Z.land x 255 = x).
    { intros x X. change 255 with (Z.ones 8). rewrite Z.land_ones by lia. apply Z.mod_small. unfold byteR in X. lia. }
    assert (VB : Forall (fun x => 0 <= x <= 255) (map fst (overImage w h (cell f g)))).
    { apply Forall_forall. intros x X. rewrite over_map in X. apply over_in in X. destruct X as (u & v & _ & _ & ->). cbn [cell fst]. pose proof (RR u v). lia. }
    assert (MNB : byteR (mn 255 (map fst (overImage w h (cell f g))))).
    { destruct (mn_in 255 (map fst (overImage w h (cell f g)))) as (A & _); [intros v V; rewrite Forall_forall in VB; apply VB; exact V | rewrite over_map; apply over_nonempty; lia |].
      rewrite Forall_forall in VB. apply VB. exact A. }
    assert (MXB : byteR (mx 0 (map fst (overImage w h (cell f g))))).
    { destruct (mx_in 0 (map fst (overImage w h (cell f g)))) as (A & _); [intros v V; rewrite Forall_forall in VB; apply VB; exact V | rewrite over_map; apply over_nonempty; lia |].
      rewrite Forall_forall in VB. apply VB. exact A. }
    apply (statsOf_cells w h f g _ 255); auto; [lia | | | | | ]; cbn [st_min st_max st_acc st_diff].
    + intros x y X Y. pose proof (RR x y). split; [lia|]. destruct g as [g|]; [|exact Logic.I]. pose proof (RG x y). lia.
    + exists 255. split; [lia|]. rewrite (hredHalves_min 4 _ _ _ 255); [rewrite I1; apply LB; exact MNB | exact L1 | reflexivity | reflexivity | eapply Forall_impl; [|exact R1]; unfold byteR; intros; lia].
    + rewrite (hredHalves_max 4 _ _ _ 0); [rewrite I2; apply LB; exact MXB | exact L2 | reflexivity | reflexivity | eapply Forall_impl; [|exact R2]; unfold byteR; intros; lia].
    + destruct (hadd64_sum _ L3) as (v & -> & C). apply cong_mod. eapply cong_trans; [exact C | exact I3].
    + destruct (hadd64_sum _ L4) as (v & -> & C). apply cong_mod. eapply cong_trans; [exact C | exact I4].
Qed.
