(** PlaneStats: the kernels compute the statistics of the plane. *)
From Coq Require Import ZArith List Lia Bool Znumtheory.
From Verif Require Import Common ImageSpec PlaneMem Spatial Pixel PixelLemmas Generic GenericLemmas PlaneStatsSpec PlaneStats.
Import ListNotations.
Open Scope Z_scope.

(** ** Lists *)
Definition mn (i : Z) (l : list Z) : Z := fold_right Z.min i l.
Definition mx (i : Z) (l : list Z) : Z := fold_right Z.max i l.
Lemma mn_le : forall i l, mn i l <= i.
Proof. intros i. induction l as [|x l IH]; cbn [mn fold_right]; [lia|]. fold (mn i l). lia. Qed.
Lemma mx_ge : forall i l, i <= mx i l.
Proof. intros i. induction l as [|x l IH]; cbn [mx fold_right]; [lia|]. fold (mx i l). lia. Qed.
Lemma mn_cons : forall i x l, mn i (x :: l) = Z.min x (mn i l).
Proof. reflexivity. Qed.
Lemma mx_cons : forall i x l, mx i (x :: l) = Z.max x (mx i l).
Proof. reflexivity. Qed.
Lemma sumOf_cons : forall x l, sumOf (x :: l) = x + sumOf l.
Proof. reflexivity. Qed.
Lemma mn_app : forall i a b, mn i (a ++ b) = Z.min (mn i a) (mn i b).
Proof. intros i. induction a as [|x a IH]; intros b; cbn [app]; [pose proof (mn_le i b); cbn; lia|]. rewrite !mn_cons, IH. lia. Qed.
Lemma mx_app : forall i a b, mx i (a ++ b) = Z.max (mx i a) (mx i b).
Proof. intros i. induction a as [|x a IH]; intros b; cbn [app]; [pose proof (mx_ge i b); cbn; lia|]. rewrite !mx_cons, IH. lia. Qed.
Lemma sumOf_app : forall a b, sumOf (a ++ b) = sumOf a + sumOf b.
Proof. induction a as [|x a IH]; intros b; cbn [app]; [cbn; lia|]. rewrite !sumOf_cons, IH. lia. Qed.

Lemma map2_length : forall A B C (f : A -> B -> C) a b, length a = length b -> length (map2 f a b) = length a.
Proof. intros A B C f. induction a as [|x a IH]; intros [|y b] L; try discriminate; [reflexivity|]. cbn [map2 length]. rewrite IH; auto. Qed.
Lemma mn_map2 : forall i a b, length a = length b -> mn i (map2 Z.min a b) = Z.min (mn i a) (mn i b).
Proof. intros i. induction a as [|x a IH]; intros [|y b] L; try discriminate; [cbn; lia|]. cbn [map2]. rewrite !mn_cons, IH by auto. lia. Qed.
Lemma mx_map2 : forall i a b, length a = length b -> mx i (map2 Z.max a b) = Z.max (mx i a) (mx i b).
Proof. intros i. induction a as [|x a IH]; intros [|y b] L; try discriminate; [cbn; lia|]. cbn [map2]. rewrite !mx_cons, IH by auto. lia. Qed.
Lemma map2_map : forall A B C D (f : B -> C -> D) (g : A -> B) (h : A -> C) l, map2 f (map g l) (map h l) = map (fun x => f (g x) (h x)) l.
Proof. intros A B C D f g h. induction l as [|x l IH]; [reflexivity|]. cbn [map map2]. rewrite IH. reflexivity. Qed.

Lemma mn_in : forall i l, (forall v, In v l -> v <= i) -> l <> [] -> least l (mn i l).
Proof.
  intros i l B N. assert (G : forall v, In v l -> mn i l <= v).
  { clear. induction l as [|x l IH]; [intros v []|]. intros v [->|V]; rewrite mn_cons; [lia|]. specialize (IH v V). lia. }
  split; [|exact G]. assert (Q : mn i l = i \/ In (mn i l) l).
  { clear. induction l as [|x l IH]; [left; reflexivity|]. rewrite mn_cons. destruct (Z.min_spec x (mn i l)) as [(_ & ->)|(_ & ->)]; [right; left; reflexivity|].
    destruct IH; [left; assumption | right; right; assumption]. }
  destruct Q as [Q|Q]; [|exact Q]. destruct l as [|x l]; [contradiction|]. specialize (G x (or_introl eq_refl)). specialize (B x (or_introl eq_refl)).
  rewrite Q in G. left. lia.
Qed.
Lemma mx_in : forall i l, (forall v, In v l -> i <= v) -> l <> [] -> greatest l (mx i l).
Proof.
  intros i l B N. assert (G : forall v, In v l -> v <= mx i l).
  { clear. induction l as [|x l IH]; [intros v []|]. intros v [->|V]; rewrite mx_cons; [lia|]. specialize (IH v V). lia. }
  split; [|exact G]. assert (Q : mx i l = i \/ In (mx i l) l).
  { clear. induction l as [|x l IH]; [left; reflexivity|]. rewrite mx_cons. destruct (Z.max_spec x (mx i l)) as [(_ & ->)|(_ & ->)]; [|right; left; reflexivity].
    destruct IH; [left; assumption | right; right; assumption]. }
  destruct Q as [Q|Q]; [|exact Q]. destruct l as [|x l]; [contradiction|]. specialize (G x (or_introl eq_refl)). specialize (B x (or_introl eq_refl)).
  rewrite Q in G. left. lia.
Qed.

(** Congruence modulo 2^64. *)
Definition cong (a b : Z) : Prop := (18446744073709551616 | a - b).
Lemma cong_refl : forall a, cong a a.
Proof. intros a. unfold cong. rewrite Z.sub_diag. apply Z.divide_0_r. Qed.
Lemma cong_add : forall a b c d, cong a b -> cong c d -> cong (a + c) (b + d).
Proof. intros a b c d A C. unfold cong in *. replace (a + c - (b + d)) with ((a - b) + (c - d)) by ring. apply Z.divide_add_r; assumption. Qed.
Lemma cong_trans : forall a b c, cong a b -> cong b c -> cong a c.
Proof. intros a b c A C. unfold cong in *. replace (a - c) with ((a - b) + (b - c)) by ring. apply Z.divide_add_r; assumption. Qed.
Lemma cong_wrapu : forall a, cong (wrapu64 a) a.
Proof. intros a. exists (- (a / 18446744073709551616)). unfold wrapu64. pose proof (Z.div_mod a 18446744073709551616 ltac:(lia)). lia. Qed.
Lemma cong_wrap : forall a, cong (wrap64 a) a.
Proof. intros a. exists (- ((a + 9223372036854775808) / 18446744073709551616)). unfold wrap64. pose proof (Z.div_mod (a + 9223372036854775808) 18446744073709551616 ltac:(lia)). lia. Qed.
Lemma cong_mod : forall a b, cong a b -> wrapu64 a = wrapu64 b.
Proof. intros a b (c & C). unfold wrapu64. replace a with (b + c * 18446744073709551616) by lia. apply Z.mod_add. lia. Qed.
Lemma cong_signed : forall a b, cong a b -> -9223372036854775808 <= b < 9223372036854775808 -> wrap64 a = b.
Proof.
  intros a b (c & C) B. unfold wrap64. replace (a + 9223372036854775808) with (b + 9223372036854775808 + c * 18446744073709551616) by lia.
  rewrite Z.mod_add by lia. rewrite Z.mod_small by lia. lia.
Qed.
Lemma cong_sum : forall f a b, (forall x y, cong (f x y) (x + y)) -> length a = length b -> cong (sumOf (map2 f a b)) (sumOf a + sumOf b).
Proof.
  intros f a b F. revert b. induction a as [|x a IH]; intros [|y b] L; try discriminate; [apply cong_refl|]. cbn [map2]. rewrite !sumOf_cons.
  replace (x + sumOf a + (y + sumOf b)) with ((x + y) + (sumOf a + sumOf b)) by ring. apply cong_add; [apply F | apply IH; auto].
Qed.

(** ** Loops over a plane *)
Section Plane.
Variables w h : Z.
Hypothesis W : 0 <= w.
Hypothesis H : 0 <= h.

Lemma rows_inv : forall {S A} (I : list A -> S -> Prop) (cell : Z -> Z -> A) (row : Z -> S -> outcome S) s0, I [] s0 ->
  (forall y l s, 0 <= y < h -> I l s -> exists s', row y s = Ok s' /\ I (l ++ map (fun x => cell x y) (zseq w)) s') ->
  exists s, forZ h row s0 = Ok s /\ I (overImage w h cell) s.
Proof.
  intros S A I cell row s0 I0 ST. apply (forZ_inv (fun y s => I (overImage w y cell) s)); auto.
  intros y s Y Is. destruct (ST y _ s Y Is) as (s' & E & Is'). exists s'. split; [exact E|].
  unfold overImage in *. rewrite zseq_succ by lia. rewrite flat_map_app. cbn [flat_map]. rewrite app_nil_r. exact Is'.
Qed.

Lemma over_length : forall A (f : Z -> Z -> A), zlength (overImage w h f) = w * h.
Proof.
  intros A f. unfold overImage, zlength. rewrite <- (Z2Nat.id w), <- (Z2Nat.id h) by lia. unfold zseq at 2. rewrite Nat2Z.id.
  generalize 0%nat. induction (Z.to_nat h) as [|n IH]; intros b; [cbn [seq map flat_map length]; lia|].
  cbn [seq map flat_map]. rewrite app_length, Nat2Z.inj_add, IH, map_length. unfold zseq. rewrite map_length, seq_length, Nat2Z.id. lia.
Qed.
Lemma over_in : forall A (f : Z -> Z -> A) v, In v (overImage w h f) -> exists x y, 0 <= x < w /\ 0 <= y < h /\ v = f x y.
Proof.
  intros A f v V. unfold overImage in V. apply in_flat_map in V. destruct V as (y & Y & V). apply in_map_iff in V. destruct V as (x & <- & X).
  apply In_zseq in X. apply In_zseq in Y. eauto.
Qed.
Lemma over_nonempty : forall A (f : Z -> Z -> A), 0 < w -> 0 < h -> overImage w h f <> [].
Proof. intros A f W0 H0 C. pose proof (over_length A f) as L. rewrite C in L. unfold zlength in L. cbn in L. nia. Qed.
Lemma over_map : forall A B (g : A -> B) f, map g (overImage w h f) = overImage w h (fun x y => g (f x y)).
Proof. intros A B g f. unfold overImage. induction (zseq h) as [|y l IH]; [reflexivity|]. cbn [flat_map]. rewrite map_app, map_map, IH. reflexivity. Qed.
End Plane.

Lemma sum_bound : forall b l, (forall v, In v l -> 0 <= v <= b) -> 0 <= sumOf l <= b * zlength l.
Proof.
  intros b. induction l as [|x l IH]; intros B; [unfold zlength; cbn; lia|]. rewrite sumOf_cons. unfold zlength in *. cbn [length].
  specialize (B x (or_introl eq_refl)) as Bx. specialize (IH (fun v V => B v (or_intror V))). rewrite Nat2Z.inj_succ. lia.
Qed.

(** A sample and its distance from the other clip. *)
Definition cell (f : Z -> Z -> Z) (g : option (Z -> Z -> Z)) (x y : Z) : Z * Z :=
  (f x y, match g with Some g => Z.abs (f x y - g x y) | None => 0 end).
Definition statsOf (w h : Z) (f : Z -> Z -> Z) (g : option (Z -> Z -> Z)) (s : stats) : Prop :=
  let l := overImage w h f in
  least l (st_min s) /\ greatest l (st_max s) /\ st_acc s = sumOf l /\
  st_diff s = match g with Some g => sumOf (overImage w h (fun x y => Z.abs (f x y - g x y))) | None => 0 end.

Lemma statsOf_cells : forall w h f g s top, 0 < w -> 0 < h -> w * h <= 2 ^ 46 -> top <= 65535 ->
  (forall x y, 0 <= x < w -> 0 <= y < h -> 0 <= f x y <= top /\ match g with Some g => 0 <= g x y <= top | None => True end) ->
  let l := overImage w h (cell f g) in
  (exists i, top <= i /\ st_min s = mn i (map fst l)) -> st_max s = mx 0 (map fst l) -> st_acc s = wrapu64 (sumOf (map fst l)) -> st_diff s = wrapu64 (sumOf (map snd l)) ->
  statsOf w h f g s.
Proof.
  intros w h f g s top W H WH T R l (i & I1 & I2) MX AC DI. unfold l in *. rewrite !over_map in * by lia. cbn [cell fst snd] in *.
  assert (LN : forall A (c : Z -> Z -> A), zlength (overImage w h c) = w * h) by (intros; apply over_length; lia).
  unfold statsOf. split; [|split; [|split]].
  - rewrite I2. apply mn_in; [|apply over_nonempty; lia]. intros v V. apply over_in in V. destruct V as (x & y & X & Y & ->). pose proof (proj1 (R x y X Y)). lia.
  - rewrite MX. apply mx_in; [|apply over_nonempty; lia]. intros v V. apply over_in in V. destruct V as (x & y & X & Y & ->). pose proof (proj1 (R x y X Y)). lia.
  - rewrite AC. destruct (sum_bound top (overImage w h f)) as (B1 & B2).
    + intros v V. apply over_in in V. destruct V as (x & y & X & Y & ->). apply R; assumption.
    + rewrite LN in B2. unfold wrapu64. apply Z.mod_small. split; [exact B1|]. assert (0 <= w * h) by nia. nia.
  - rewrite DI. destruct g as [g|].
    + destruct (sum_bound top (overImage w h (fun x y => Z.abs (f x y - g x y)))) as (B1 & B2).
      * intros v V. apply over_in in V. destruct V as (x & y & X & Y & ->). pose proof (R x y X Y). cbv beta. lia.
      * rewrite LN in B2. unfold wrapu64. apply Z.mod_small. split; [exact B1|]. assert (0 <= w * h) by nia. nia.
    + replace (sumOf (overImage w h (fun _ _ => 0))) with 0; [reflexivity|]. unfold overImage. induction (zseq h) as [|y q IH]; [reflexivity|]. cbn [flat_map]. rewrite sumOf_app, <- IH.
      clear. induction (zseq w) as [|x q IH]; [reflexivity|]. cbn [map]. rewrite sumOf_cons. lia.
Qed.

(** ** The C kernels *)
Definition reads (k w h : Z) (p : plane) (f : Z -> Z -> Z) : Prop :=
  forall x y, 0 <= x < w -> 0 <= y < h -> loadS k (p_buf p) (y * p_stride p + x * k) = Ok (f x y) /\ 0 <= f x y < 256 ^ k.
Definition readsO (k w h : Z) (o : option plane) (g : option (Z -> Z -> Z)) : Prop :=
  match o, g with Some q, Some g => reads k w h q g | None, None => True | _, _ => False end.

Definition agreesC (k : Z) (l : list (Z * Z)) (s : stats) : Prop :=
  st_min s = mn (if k =? 1 then 255 else 4294967295) (map fst l) /\ st_max s = mx 0 (map fst l) /\
  st_acc s = wrapu64 (sumOf (map fst l)) /\ st_diff s = wrapu64 (sumOf (map snd l)).

Lemma diffC_abs : forall k v t, 1 <= k <= 2 -> 0 <= v < 256 ^ k -> 0 <= t < 256 ^ k -> diffC k v t = Z.abs (v - t).
Proof.
  intros k v t K V T. unfold diffC. destruct (Z.eqb_spec k 1) as [->|]; [|reflexivity]. change (256 ^ 1) with 256 in *. unfold wrapu8.
  destruct (Z.ltb_spec t v); rewrite Z.mod_small by lia; lia.
Qed.

Theorem statsC_spec : forall k w h p o f g, 1 <= k <= 2 -> 0 < w -> 0 < h -> w * h <= 2 ^ 46 -> reads k w h p f -> readsO k w h o g ->
  exists s, statsC k w h p o = Ok s /\ statsOf w h f g s.
Proof.
  intros k w h p o f g K W H WH R RO.
  destruct (rows_inv w h ltac:(lia) (agreesC k) (cell f g) (fun y s => forZ w (fun x s' =>
    obind (loadS k (p_buf p) (y * p_stride p + x * k)) (fun v =>
    obind (loadOther k o x y) (fun t => Ok (statStep k v t s')))) s) (mkSt (if k =? 1 then 255 else 4294967295) 0 0 0)) as (s & E & I1 & I2 & I3 & I4).
  - repeat split.
  - intros y l s Y I. apply (forZ_inv (fun x s => agreesC k (l ++ map (fun x => cell f g x y) (zseq x)) s)); [lia | cbn [zseq seq map Z.to_nat]; rewrite app_nil_r; exact I|].
    intros x t X (J1 & J2 & J3 & J4). destruct (R x y X Y) as (LD & RV). rewrite LD. cbn [obind].
    assert (LO : exists c, loadOther k o x y = Ok c /\ match c, g with Some c, Some g => c = g x y /\ 0 <= c < 256 ^ k | None, None => True | _, _ => False end).
    { unfold loadOther, readsO in *. destruct o as [q|]; destruct g as [g|]; try contradiction; [|exists None; auto].
      destruct (RO x y X Y) as (L2 & R2). rewrite L2. cbn [obind]. exists (Some (g x y)). auto. }
    destruct LO as (c & LO & C). rewrite LO. cbn [obind]. eexists. split; [reflexivity|].
    rewrite zseq_succ by lia. rewrite map_app. cbn [map]. rewrite app_assoc. unfold agreesC, statStep. cbn [st_min st_max st_acc st_diff].
    rewrite !(map_app _ (_ ++ _)). cbn [map cell fst snd]. rewrite mn_app, mx_app, !sumOf_app. rewrite <- J1, <- J2. split; [|split; [|split]].
    + cbn [mn fold_right]. pose proof (mn_le (if k =? 1 then 255 else 4294967295) (map fst (l ++ map (fun x => cell f g x y) (zseq x)))). lia.
    + cbn [mx fold_right]. pose proof (mx_ge 0 (map fst (l ++ map (fun x => cell f g x y) (zseq x)))). lia.
    + rewrite J3. apply cong_mod. rewrite sumOf_cons. change (sumOf []) with 0. rewrite Z.add_0_r. apply cong_add; [apply cong_wrapu | apply cong_refl].
    + rewrite sumOf_cons. change (sumOf []) with 0. rewrite Z.add_0_r. rewrite J4. destruct c as [c|]; destruct g as [g|]; try contradiction.
      * destruct C as (-> & C). rewrite diffC_abs by auto. apply cong_mod, cong_add; [apply cong_wrapu | apply cong_refl].
      * rewrite Z.add_0_r. reflexivity.
  - exists s. split; [exact E|]. apply (statsOf_cells w h f g s (256 ^ k - 1)); auto.
    + assert (k = 1 \/ k = 2) as [-> | ->] by lia; lia.
    + intros x y X Y. pose proof (R x y X Y). split; [lia|]. unfold readsO in RO. destruct o, g; try contradiction; [|exact Logic.I]. pose proof (RO x y X Y). lia.
    + exists (if k =? 1 then 255 else 4294967295). split; [assert (k = 1 \/ k = 2) as [-> | ->] by lia; cbn; lia | exact I1].
Qed.
