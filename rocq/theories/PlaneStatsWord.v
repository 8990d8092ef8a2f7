(** PlaneStats: the SSE2 kernel for words. *)
From Coq Require Import ZArith List Lia Bool Znumtheory.
From Verif Require Import Common ImageSpec PlaneMem Spatial Pixel PixelLemmas Generic GenericLemmas PlaneStatsSpec PlaneStats PlaneStatsLemmas PlaneStatsVec.
Import ListNotations.
Open Scope Z_scope.

Definition bf (c : Z * Z) : Z := fst c - 32768.
Definition bd (c : Z * Z) : Z := snd c - 32768.
Definition wordR (x : Z) : Prop := -32768 <= x <= 32767.
Definition laneR (p x : Z) : Prop := -65536 * p <= x <= 65534 * p.

Lemma s16_bias : forall v, 0 <= v < 65536 -> s16 (v + -32768) = v - 32768.
Proof. intros v V. unfold s16. rewrite Z.mod_small; lia. Qed.
Lemma mn_shift : forall c i l, mn (i - c) (map (fun x => x - c) l) = mn i l - c.
Proof. intros c i. induction l as [|x l IH]; [reflexivity|]. cbn [map]. rewrite !mn_cons, IH. lia. Qed.
Lemma mx_shift : forall c i l, mx (i - c) (map (fun x => x - c) l) = mx i l - c.
Proof. intros c i. induction l as [|x l IH]; [reflexivity|]. cbn [map]. rewrite !mx_cons, IH. lia. Qed.
Lemma sum_shift : forall c l, sumOf (map (fun x => x - c) l) = sumOf l - c * zlength l.
Proof. intros c. induction l as [|x l IH]; [unfold zlength; cbn; lia|]. unfold zlength in *. cbn [map length]. rewrite !sumOf_cons, IH, Nat2Z.inj_succ. lia. Qed.

Lemma wrap32_small : forall x, -2147483648 <= x <= 2147483647 -> wrap32 x = x.
Proof. intros x X. apply wrap32_id. unfold in_int, INT_MIN, INT_MAX. lia. Qed.

Lemma madd1_spec : forall F, (forall t, 0 <= t < 8 -> wordR (F t)) ->
  length (madd1 (map F (zseq 8))) = 4%nat /\ Forall (laneR 1) (madd1 (map F (zseq 8))) /\ sumOf (madd1 (map F (zseq 8))) = sumOf (map F (zseq 8)).
Proof.
  intros F R. assert (E : forall a b, wordR a -> wordR b -> wrap32 (a * 1 + b * 1) = a + b) by (unfold wordR; intros; rewrite wrap32_small; lia).
  change (map F (zseq 8)) with [F 0; F 1; F 2; F 3; F 4; F 5; F 6; F 7]. cbn [madd1]. rewrite !E by (apply R; lia).
  split; [reflexivity|]. split.
  - repeat constructor; unfold laneR, wordR in *; match goal with |- context [F ?a + F ?b] => pose proof (R a ltac:(lia)); pose proof (R b ltac:(lia)); lia end.
  - rewrite !sumOf_cons. change (sumOf []) with 0. lia.
Qed.
Lemma add32v_spec : forall p a b, 0 <= p <= 32767 -> length a = length b -> Forall (laneR p) a -> Forall (laneR 1) b ->
  length (add32v a b) = length a /\ Forall (laneR (p + 1)) (add32v a b) /\ sumOf (add32v a b) = sumOf a + sumOf b.
Proof.
  intros p a b P L A B. split; [apply map2_length; exact L|]. revert b L B. induction A as [|x a X A IH]; intros b L B; [destruct b; [split; [constructor | reflexivity] | discriminate]|].
  destruct B as [|y b Y B]; [discriminate|]. unfold add32v in *. cbn [map2]. destruct (IH b ltac:(cbn in L; lia) B) as (F & S).
  assert (E : wrap32 (x + y) = x + y) by (unfold laneR in *; rewrite wrap32_small; lia). split.
  - constructor; [rewrite E; unfold laneR in *; lia | exact F].
  - rewrite !sumOf_cons, S, E. lia.
Qed.
Lemma spill_spec : forall r m, length r = 4%nat -> length m = 2%nat -> length (spill r m) = 2%nat /\ cong (sumOf (spill r m)) (sumOf m + sumOf r).
Proof.
  intros r m R M. destruct r as [|a [|b [|c [|d [|e r]]]]]; try discriminate. destruct m as [|u [|v [|z m]]]; try discriminate.
  split; [reflexivity|]. unfold spill. cbn [firstn skipn map2]. rewrite !sumOf_cons. change (sumOf []) with 0.
  eapply cong_trans; [apply cong_add; [apply cong_wrap | apply cong_add; [apply cong_wrap | apply cong_refl]]|].
  eapply cong_trans; [apply cong_add; [apply cong_add; [apply cong_refl | apply cong_wrap] | apply cong_add; [apply cong_add; [apply cong_refl | apply cong_wrap] | apply cong_refl]]|].
  replace (u + (a + c) + (v + (b + d) + 0)) with (u + (v + 0) + (a + (b + (c + (d + 0))))) by ring. apply cong_refl.
Qed.
Lemma lor_abs : forall x y, Z.lor (Z.max (x - y) 0) (Z.max (y - x) 0) = Z.abs (x - y).
Proof. intros x y. destruct (Z_le_gt_dec x y); [rewrite (Z.max_r (x - y)) by lia; rewrite Z.lor_0_l; lia | rewrite (Z.max_r (y - x)) by lia; rewrite Z.lor_0_r; lia]. Qed.

(** While a row is being read; [two]: there is a second clip. *)
Definition agreesJ (two : bool) (top : Z) (l : list (Z * Z)) (s : wordState) : Prop :=
  (length (ws_min s) = 8%nat /\ length (ws_max s) = 8%nat /\ length (ws_acc s) = 2%nat /\ length (ws_diff s) = 2%nat /\ length (ws_racc s) = 4%nat /\ length (ws_rdiff s) = 4%nat) /\
  Forall wordR (ws_min s) /\ Forall wordR (ws_max s) /\ mn 32767 (ws_min s) = mn 32767 (map bf l) /\ mx (-32768) (ws_max s) = mx (-32768) (map bf l) /\
  0 <= ws_pending s <= top /\ Forall (laneR (ws_pending s)) (ws_racc s) /\ cong (sumOf (ws_acc s) + sumOf (ws_racc s)) (sumOf (map bf l)) /\
  (two = true -> Forall (laneR (ws_pending s)) (ws_rdiff s) /\ cong (sumOf (ws_diff s) + sumOf (ws_rdiff s)) (sumOf (map bd l))).
(** Between rows. *)
Definition agreesW (two : bool) (l : list (Z * Z)) (s : wordState) : Prop :=
  agreesJ two 0 l s /\ ws_racc s = repeat 0 4 /\ ws_rdiff s = repeat 0 4.

Lemma lanes0 : forall p, 0 <= p -> Forall (laneR p) (repeat 0 4).
Proof. intros p P. apply Forall_forall. intros x X. apply repeat_spec in X. subst x. unfold laneR. lia. Qed.
Lemma spillState_spec : forall two top l s, agreesJ two top l s -> agreesW two l (spillState s).
Proof.
  intros two top l s ((L1 & L2 & L3 & L4 & L5 & L6) & R1 & R2 & I1 & I2 & P & B & I3 & I4). unfold agreesW, agreesJ, spillState. cbn [ws_min ws_max ws_acc ws_diff ws_racc ws_rdiff ws_pending].
  destruct (spill_spec _ _ L5 L3) as (S1 & S2). destruct (spill_spec _ _ L6 L4) as (S3 & S4).
  split; [|split; reflexivity]. do 6 (split; [try assumption; try (repeat split; assumption || reflexivity); try lia|]). split; [apply lanes0; lia|].
  change (sumOf (repeat 0 4)) with 0. rewrite !Z.add_0_r. split; [eapply cong_trans; [exact S2 | exact I3]|].
  intros Q. destruct (I4 Q) as (_ & J4). split; [apply lanes0; lia | eapply cong_trans; [exact S4 | exact J4]].
Qed.
Lemma agreesW_J : forall two top l s, 0 <= top -> agreesW two l s -> agreesJ two top l s.
Proof. intros two top l s T ((L & R1 & R2 & I1 & I2 & P & B & I3) & _). unfold agreesJ. repeat split; try assumption; try apply L; try apply I3; try lia; assumption. Qed.
Lemma spillWhen_spec : forall two l s, agreesJ two 32768 l s -> agreesJ two 32767 l (spillWhen s).
Proof.
  intros two l s J. unfold spillWhen. destruct (Z.eqb_spec (ws_pending s) 32768) as [Q|Q]; [apply agreesW_J; [lia | apply spillState_spec with 32768; exact J]|].
  destruct J as (L & R1 & R2 & I1 & I2 & P & REST). unfold agreesJ. do 5 (split; [assumption|]). split; [lia | exact REST].
Qed.
Lemma zeros4_spec : forall two l s, agreesW two l s -> agreesJ two 32767 l (zeros4 s).
Proof.
  intros two l s W. pose proof W as (_ & Z1 & Z2). apply agreesW_J with (top := 32767) in W; [|lia].
  destruct W as (L & R1 & R2 & I1 & I2 & P & B & I3). unfold agreesJ, zeros4. cbn [ws_min ws_max ws_acc ws_diff ws_racc ws_rdiff ws_pending].
  rewrite Z1, Z2 in *. do 5 (split; [assumption|]). split; [lia|]. split; [apply lanes0; lia|]. destruct I3 as (A & I3). split; [exact A|]. intros Q. split; [apply lanes0; lia | apply I3; exact Q].
Qed.

(** What the sums add: the kept biased lanes. *)
Lemma wordStep_spec : forall m Fmin F (T : option (Z -> Z)) (K : Z -> bool) km (c : Z -> Z * Z) l s, 0 <= m <= 8 ->
  (forall G, km (map G (zseq 8)) = map (fun t => if K t then G t else 0) (zseq 8)) ->
  (forall t, 0 <= t < m -> K t = true /\ Fmin t = fst (c t) /\ F t = fst (c t) /\ 0 <= fst (c t) < 65536 /\ match T with Some T => 0 <= T t < 65536 /\ Z.abs (F t - T t) = snd (c t) | None => True end) ->
  (forall t, m <= t < 8 -> K t = false /\ Fmin t = 65535 /\ F t = 0 /\ match T with Some T => T t = 0 | None => True end) ->
  agreesJ (match T with Some _ => true | None => false end) 32767 l s ->
  agreesJ (match T with Some _ => true | None => false end) 32768 (l ++ map c (zseq m)) (wordStep (map Fmin (zseq 8)) (map F (zseq 8)) (option_map (fun T => map T (zseq 8)) T) km s).
Proof.
  intros m Fmin F T K km c l s M KM IN OUT ((L1 & L2 & L3 & L4 & L5 & L6) & R1 & R2 & I1 & I2 & P & B & I3 & I4).
  assert (FB : forall t, 0 <= t < 8 -> 0 <= F t < 65536 /\ 0 <= Fmin t < 65536).
  { intros t Ht. destruct (Z_lt_le_dec t m) as [Q|Q]; [destruct (IN t ltac:(lia)) as (_ & A1 & A2 & A3 & _); rewrite A1, A2 | destruct (OUT t ltac:(lia)) as (_ & A1 & A2 & _); rewrite A1, A2]; lia. }
  assert (LL : forall (f : Z -> Z), length (map f (zseq 8)) = 8%nat) by reflexivity.
  assert (BI : forall G : Z -> Z, biased (map G (zseq 8)) = map (fun t => s16 (G t + -32768)) (zseq 8)) by (intros; unfold biased; rewrite map_map; reflexivity).
  assert (WR : forall v, wordR (s16 v)).
  { intros v. unfold wordR, s16. pose proof (Z.mod_pos_bound (v + 32768) 65536 ltac:(lia)). lia. }
  assert (W0 : wordR 0) by (unfold wordR; lia).
  destruct (madd1_spec (fun t => if K t then s16 (F t + -32768) else 0)) as (A1 & A2 & A3); [intros t _; destruct (K t); [apply WR | exact W0]|].
  destruct (add32v_spec (ws_pending s) (ws_racc s) _ ltac:(lia) (eq_trans L5 (eq_sym A1)) B A2) as (D1 & D2 & D3).
  unfold agreesJ, wordStep. cbn [ws_min ws_max ws_acc ws_diff ws_racc ws_rdiff ws_pending]. rewrite !BI, KM, !map_app, mn_app, mx_app, !sumOf_app, !map_map.
  assert (SF : sumOf (map (fun t => if K t then s16 (F t + -32768) else 0) (zseq 8)) = sumOf (map (fun t => bf (c t)) (zseq m))).
  { apply sum_lanes; [lia | | intros t Ht; destruct (OUT t Ht) as (-> & _); reflexivity].
    intros t Ht. destruct (IN t Ht) as (-> & _ & -> & Q & _). rewrite s16_bias by lia. reflexivity. }
  split; [|split; [|split; [|split; [|split; [|split; [|split; [|split]]]]]]].
  - rewrite !map2_length by (rewrite LL; assumption). do 4 (split; [assumption|]). split; [rewrite D1; exact L5|]. destruct T as [T|]; cbn [option_map]; [|exact L6].
    unfold add32v. rewrite map2_length; [exact L6|]. unfold absdiff. rewrite map2_map, BI, KM. rewrite L6. reflexivity.
  - apply Forall_map2 with wordR wordR; [unfold wordR; lia | exact R1 | apply Forall_lanes; intros; apply WR].
  - apply Forall_map2 with wordR wordR; [unfold wordR; lia | exact R2 | apply Forall_lanes; intros; apply WR].
  - rewrite mn_map2 by (rewrite LL; exact L1). rewrite I1. f_equal. apply mn_lanes; [lia | |].
    + intros t Ht. destruct (IN t Ht) as (_ & -> & _ & Q & _). rewrite s16_bias by lia. reflexivity.
    + intros t Ht. destruct (OUT t Ht) as (_ & -> & _). reflexivity.
  - rewrite mx_map2 by (rewrite LL; exact L2). rewrite I2. f_equal. apply mx_lanes with (-32768); [lia | | | lia].
    + intros t Ht. destruct (IN t Ht) as (_ & _ & -> & Q & _). rewrite s16_bias by lia. reflexivity.
    + intros t Ht. destruct (OUT t Ht) as (_ & _ & -> & _). reflexivity.
  - lia.
  - exact D2.
  - rewrite D3, A3, SF, Z.add_assoc. apply cong_add; [exact I3 | apply cong_refl].
  - destruct T as [T|]; cbn [option_map]; [|discriminate]. intros _. destruct (I4 eq_refl) as (B4 & J4).
    unfold absdiff. rewrite map2_map, BI, KM.
    destruct (madd1_spec (fun t => if K t then s16 (Z.lor (Z.max (F t - T t) 0) (Z.max (T t - F t) 0) + -32768) else 0)) as (E1 & E2 & E3); [intros t _; destruct (K t); [apply WR | exact W0]|].
    destruct (add32v_spec (ws_pending s) (ws_rdiff s) _ ltac:(lia) (eq_trans L6 (eq_sym E1)) B4 E2) as (G1 & G2 & G3). split; [exact G2|].
    rewrite G3, E3, Z.add_assoc. apply cong_add; [exact J4|].
    erewrite (sum_lanes 8 m _ (fun t => bd (c t))); [apply cong_refl | lia | | intros t Ht; destruct (OUT t Ht) as (-> & _); reflexivity].
    intros t Ht. destruct (IN t Ht) as (-> & _ & A & Q & TT & D). rewrite lor_abs, D. unfold bd. rewrite s16_bias; [reflexivity|]. rewrite <- D, A. lia.
Qed.

Theorem wordSSE2_spec : forall w h p o f g, 0 < w -> 0 < h -> w * h <= 2 ^ 46 -> readsV 2 8 w h p f -> readsVO 2 8 w h o g ->
  exists s, wordSSE2 w h p o = Ok s /\ statsOf w h f g s.
Proof.
  intros w h p o f g W H WH R RO. unfold wordSSE2. pose proof (groups_bound w 8 ltac:(lia) ltac:(lia)) as (GB1 & GB2). pose proof (Z.mod_pos_bound w 8 ltac:(lia)) as MB.
  pose proof R as (RL & RR). assert (RG : match g with Some g => forall x y, 0 <= g x y < 65536 | None => True end) by (unfold readsVO in RO; destruct o, g; try contradiction; [apply RO | exact Logic.I]).
  change (256 ^ 2) with 65536 in RR. set (two := match g with Some _ => true | None => false end).
  assert (TW : forall (S : Type) (q : (Z -> Z -> Z) -> S), match option_map q g with Some _ => true | None => false end = two) by (intros; unfold two; destruct g; reflexivity).
  match goal with |- context [forZ h ?row ?s0] => destruct (rows_inv w h ltac:(lia) (agreesW two) (cell f g) row s0) as (s & E & I) end.
  - split; [|split; reflexivity]. split; [repeat split|]. split; [apply Forall_forall; intros x X; apply repeat_spec in X; unfold wordR; lia|].
    split; [apply Forall_forall; intros x X; apply repeat_spec in X; unfold wordR; lia|]. split; [reflexivity|]. split; [reflexivity|]. cbn [ws_pending ws_racc ws_rdiff ws_acc ws_diff map].
    split; [lia|]. split; [apply lanes0; lia|]. split; [apply cong_refl|]. intros _. split; [apply lanes0; lia | apply cong_refl].
  - intros y l s Y I. apply zeros4_spec in I. revert I. generalize (zeros4 s). clear s. intros s I.
    match goal with |- exists s', obind (forZ _ ?full s) ?tail = _ /\ _ => apply (row_inv 8 w (agreesW two) (agreesJ two 32767) (fun x => cell f g x y) full tail l s) end; [lia | lia | exact I | |].
    + intros j q t J Iq. change 8%nat with (Z.to_nat 8). rewrite (RL j y ltac:(lia) Y). cbn [obind]. rewrite (loads 2 8 w h o g j y RO ltac:(lia) Y). cbn [obind].
      eexists. split; [reflexivity|]. apply spillWhen_spec.
      replace (option_map (fun g => map (fun t => g (8 * j + t) y) (zseq 8)) g) with (option_map (fun T => map T (zseq 8)) (option_map (fun g t => g (8 * j + t) y) g)) by (destruct g; reflexivity).
      rewrite <- (TW _ (fun g t => g (8 * j + t) y)). rewrite <- (TW _ (fun g t => g (8 * j + t) y)) in Iq.
      apply (wordStep_spec 8 _ _ _ (fun _ => true)); [lia|reflexivity| |intros; lia|exact Iq]. intros t0 T0. cbn [cell fst snd]. do 3 (split; [reflexivity|]). split; [pose proof (RR (8 * j + t0) y); lia|].
      destruct g as [g'|]; cbn [option_map]; [split; [apply RG | reflexivity] | exact Logic.I].
    + intros q t Iq. destruct (Z.eqb_spec (w mod 8) 0) as [Q|Q].
      * eexists. split; [reflexivity|]. rewrite Q. cbn [zseq Z.to_nat seq map]. rewrite app_nil_r. apply spillState_spec with 32767. exact Iq.
      * specialize (GB2 Q). assert (D0 : 0 <= w / 8) by (apply Z.div_pos; lia). change 8%nat with (Z.to_nat 8).
        rewrite (RL (w / 8) y ltac:(lia) Y). cbn [obind]. rewrite (loads 2 8 w h o g (w / 8) y RO ltac:(lia) Y). cbn [obind].
        eexists. split; [reflexivity|]. rewrite keep_map, orOnes_map. apply spillState_spec with 32768.
        match goal with |- agreesJ _ _ _ (wordStep _ _ ?t0 _ _) => replace t0 with (option_map (fun T => map T (zseq 8)) (option_map (fun g t => if t <? w mod 8 then g (8 * (w / 8) + t) y else 0) g)) end.
        2:{ destruct g as [g'|]; [|reflexivity]. cbn [option_map]. rewrite keep_map. reflexivity. }
        rewrite <- (TW _ (fun g t => if t <? w mod 8 then g (8 * (w / 8) + t) y else 0)). rewrite <- (TW _ (fun g t => if t <? w mod 8 then g (8 * (w / 8) + t) y else 0)) in Iq.
        apply (wordStep_spec (w mod 8) _ _ _ (fun t => t <? w mod 8)); [lia | intros G; apply keep_map | | | exact Iq].
        -- intros t0 T0. destruct (Z.ltb_spec t0 (w mod 8)); [|lia]. cbn [cell fst snd]. do 3 (split; [reflexivity|]).
           split; [pose proof (RR (8 * (w / 8) + t0) y); lia|]. destruct g as [g'|]; cbn [option_map]; [|exact Logic.I]. destruct (Z.ltb_spec t0 (w mod 8)); [split; [apply RG | reflexivity] | lia].
        -- intros t0 T0. destruct (Z.ltb_spec t0 (w mod 8)); [lia|]. do 3 (split; [reflexivity|]).
           destruct g; cbn [option_map]; [|exact Logic.I]. destruct (Z.ltb_spec t0 (w mod 8)); [lia | reflexivity].
  - rewrite E. cbn [obind]. destruct I as (((L1 & L2 & L3 & L4 & L5 & L6) & R1 & R2 & I1 & I2 & P & B & I3 & I4) & Z1 & Z2).
    rewrite Z1, Z2 in *. change (sumOf (repeat 0 4)) with 0 in *. rewrite !Z.add_0_r in *.
    set (cells := overImage w h (cell f g)) in *.
    assert (LN : zlength cells = w * h) by (apply over_length; lia).
    assert (VB : forall x, In x (map fst cells) -> 0 <= x <= 65535).
    { intros x X. unfold cells in X. rewrite over_map in X. apply over_in in X. destruct X as (u & v & _ & _ & ->). cbn [cell fst]. pose proof (RR u v). lia. }
    assert (VD : forall x, In x (map snd cells) -> 0 <= x <= 65535).
    { intros x X. unfold cells in X. rewrite over_map in X. apply over_in in X. destruct X as (u & v & _ & _ & ->). cbn [cell snd]. destruct g as [g'|]; [|lia]. pose proof (RR u v). pose proof (RG u v). lia. }
    assert (BFE : map bf cells = map (fun x => x - 32768) (map fst cells)) by (rewrite map_map; reflexivity).
    assert (BDE : map bd cells = map (fun x => x - 32768) (map snd cells)) by (rewrite map_map; reflexivity).
    rewrite BFE in *. rewrite BDE in *. rewrite sum_shift in I3. rewrite sum_shift in I4.
    assert (LF : zlength (map fst cells) = w * h) by (unfold zlength; rewrite map_length; exact LN).
    assert (LS : zlength (map snd cells) = w * h) by (unfold zlength; rewrite map_length; exact LN). rewrite LF in I3. rewrite LS in I4.
    pose proof (sum_bound _ _ VB) as SB. pose proof (sum_bound _ _ VD) as SD. rewrite LF in SB. rewrite LS in SD.
    assert (N0 : 0 <= w * h) by nia. change (2 ^ 46) with 70368744177664 in WH.
    assert (BS : wrap64 (wrapu64 (Z.shiftl (wrapu64 (w * h)) 15)) = 32768 * (w * h)).
    { unfold wrapu64. rewrite (Z.mod_small (w * h)) by lia. rewrite Z.shiftl_mul_pow2 by lia. change (2 ^ 15) with 32768. rewrite Z.mod_small by lia.
      replace (w * h * 32768) with (32768 * (w * h)) by ring. apply cong_signed; [apply cong_refl | lia]. }
    assert (TOT : forall l v, length l = 2%nat -> 0 <= v <= 65535 * (w * h) -> cong (sumOf l) (v - 32768 * (w * h)) ->
              obind (chk64 (wrap64 (hd 0 l + hd 0 (srli 1 l)) + wrap64 (wrapu64 (Z.shiftl (wrapu64 (w * h)) 15)))) (fun v => Ok (wrapu64 v)) = Ok (wrapu64 v)).
    { intros l v L V C. rewrite BS. destruct l as [|a [|b [|c l]]]; try discriminate. cbn [hd srli skipn repeat app].
      rewrite (cong_signed _ (v - 32768 * (w * h))); [|replace (a + b) with (sumOf [a; b]) by (cbn; lia); exact C | lia].
      replace (v - 32768 * (w * h) + 32768 * (w * h)) with v by ring. unfold chk64. rewrite (proj2 (in_int64b_spec v)) by (unfold in_int64, INT64_MIN, INT64_MAX; lia). reflexivity. }
    rewrite (TOT _ (sumOf (map fst cells)) L3 SB I3). cbn [obind].
    assert (DF : match o with Some _ => obind (chk64 (wrap64 (hd 0 (ws_diff s) + hd 0 (srli 1 (ws_diff s))) + wrap64 (wrapu64 (Z.shiftl (wrapu64 (w * h)) 15)))) (fun v => Ok (wrapu64 v)) | None => Ok 0 end
                 = Ok (wrapu64 (sumOf (map snd cells)))).
    { unfold readsVO in RO. destruct o as [q|]; destruct g as [g'|]; try contradiction.
      - apply TOT; [exact L4 | exact SD | apply I4; reflexivity].
      - replace (sumOf (map snd cells)) with 0; [reflexivity|]. unfold cells. rewrite over_map. cbn [cell snd]. unfold overImage. clear. induction (zseq h) as [|y q IH]; [reflexivity|].
        cbn [flat_map]. rewrite sumOf_app, <- IH. clear. induction (zseq w) as [|x q IH]; [reflexivity|]. cbn [map]. rewrite sumOf_cons. lia. }
    rewrite DF. cbn [obind]. eexists. split; [reflexivity|].
    apply (statsOf_cells w h f g _ 65535); [exact W | exact H | exact WH | lia | | | | | ]; fold cells; cbn [st_min st_max st_acc st_diff].
    + intros x y X Y. pose proof (RR x y). split; [lia|]. destruct g as [g'|]; [|exact Logic.I]. pose proof (RG x y). lia.
    + exists 65535. split; [lia|]. rewrite (hred_min 3 _ _ 32767); [rewrite I1; change 32767 with (65535 - 32768); rewrite mn_shift; lia | exact L1 | reflexivity | eapply Forall_impl; [|exact R1]; unfold wordR; intros; lia].
    + rewrite (hred_max 3 _ _ (-32768)); [rewrite I2; change (-32768) with (0 - 32768); rewrite mx_shift; lia | exact L2 | reflexivity | eapply Forall_impl; [|exact R2]; unfold wordR; intros; lia].
    + reflexivity.
    + reflexivity.
Qed.
