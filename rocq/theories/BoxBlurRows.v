(** One row of BoxBlur: the running sums give the mean of the window. *)
From Coq Require Import ZArith List Lia Bool.
From Verif Require Import Common FormatSpec Format Frame ImageSpec PlaneMem Spatial Pixel PixelLemmas Transpose TransposeLemmas
  GenericSpec Generic GenericOps BoxBlurSpec BoxBlur BoxBlurDiv.
Import ListNotations.
Open Scope Z_scope.

Definition sums (n : Z) (h : Z -> Z) : Z := sumL (map h (zseq n)).
Lemma sums_0 : forall h, sums 0 h = 0.
Proof. reflexivity. Qed.
Lemma sums_succ : forall n h, 0 <= n -> sums (n + 1) h = sums n h + h n.
Proof. intros n h N. unfold sums. rewrite zseq_succ by lia. rewrite map_app, sumL_app. cbn [map]. unfold sumL at 2. cbn [fold_right]. lia. Qed.
Lemma sums_cons : forall n h, 0 <= n -> sums (n + 1) h = h 0 + sums n (fun d => h (d + 1)).
Proof. intros n h N. unfold sums. rewrite zseq_cons by lia. cbn [map]. rewrite map_map. unfold sumL at 1. cbn [fold_right]. reflexivity. Qed.
Lemma sums_ext : forall n h h', (forall d, 0 <= d < n -> h d = h' d) -> sums n h = sums n h'.
Proof. intros n h h' E. unfold sums. f_equal. apply map_ext_in. intros d D. apply In_zseq in D. apply E. exact D. Qed.
Lemma sums_bound : forall n h b, 0 <= n -> (forall d, 0 <= d < n -> 0 <= h d <= b) -> 0 <= sums n h <= n * b.
Proof.
  intros n h b N. revert n N. apply (natlike_ind (fun n => (forall d, 0 <= d < n -> 0 <= h d <= b) -> 0 <= sums n h <= n * b)).
  - intros _. rewrite sums_0. lia.
  - intros n N IH B. rewrite <- Z.add_1_r, sums_succ by lia. specialize (IH ltac:(intros; apply B; lia)). specialize (B n ltac:(lia)). lia.
Qed.
Lemma sums_const : forall n h c, 0 <= n -> (forall d, 0 <= d < n -> h d = c) -> sums n h = n * c.
Proof.
  intros n h c N. revert n N. apply (natlike_ind (fun n => (forall d, 0 <= d < n -> h d = c) -> sums n h = n * c)).
  - intros _. rewrite sums_0. lia.
  - intros n N IH B. rewrite <- Z.add_1_r, sums_succ by lia. rewrite IH by (intros; apply B; lia). rewrite B by lia. lia.
Qed.

Lemma edge_range : forall n i, 1 <= n -> 0 <= edge n i < n.
Proof. intros. unfold edge. lia. Qed.

(** The columns before [x] of the row at [d] hold [g], all other bytes are those of [m0]. *)
Definition wrote (k d : Z) (g : Z -> Z) (m0 : pbuf) (x : Z) (m : pbuf) : Prop :=
  b_size m = b_size m0 /\
  (forall u, 0 <= u < x -> leval (Z.to_nat k) (b_data m) (d + u * k) = g u) /\
  (forall a, a < d \/ d + x * k <= a -> b_data m a = b_data m0 a).

Lemma wrote_0 : forall k d g m, wrote k d g m 0 m.
Proof. intros. split; [reflexivity|]. split; [intros; lia | reflexivity]. Qed.

Lemma wrote_step : forall k d g m0 w x m v, 1 <= k -> 0 <= d -> d + w * k <= b_size m0 -> 0 <= x < w ->
  v = g x -> 0 <= g x < 256 ^ k -> wrote k d g m0 x m ->
  exists m', storeS k m (d + x * k) v = Ok m' /\ wrote k d g m0 (x + 1) m'.
Proof.
  intros k d g m0 w x m v K D B X -> R (S & G & O).
  destruct (storeS_spec k m (d + x * k) (g x) K ltac:(nia) ltac:(rewrite S; nia)) as (m' & E & S' & N & F).
  exists m'. split; [exact E|]. split; [lia|]. split.
  - intros u U. destruct (Z.eq_dec u x) as [->|NE]; [apply leval_stored; assumption|].
    rewrite <- (G u) by lia. apply leval_ext. intros j J. apply F. rewrite Z2Nat.id in J by lia. left. nia.
  - intros a A. rewrite F by nia. apply O. nia.
Qed.

(** A column not yet written. *)
Lemma wrote_rest : forall k d g m0 w x m u, 1 <= k -> 0 <= d -> d + w * k <= b_size m0 -> 0 <= x -> x <= u < w -> wrote k d g m0 x m ->
  loadS k m (d + u * k) = Ok (leval (Z.to_nat k) (b_data m0) (d + u * k)).
Proof.
  intros k d g m0 w x m u K D B X U (S & _ & O). rewrite loadS_ok by (try rewrite S; nia). f_equal. apply leval_ext.
  intros j J. apply O. rewrite Z2Nat.id in J by lia. right. nia.
Qed.

Lemma pow_k : forall k, 1 <= k <= 2 -> 256 ^ k = 256 \/ 256 ^ k = 65536.
Proof. intros k K. assert (k = 1 \/ k = 2) as [->| ->] by lia; [left|right]; reflexivity. Qed.

Section Row.
Variables (k w r round : Z) (f : Z -> Z).
Hypothesis HK : 1 <= k <= 2.
Hypothesis HW : 1 <= w.
Hypothesis HR : 1 <= r <= 30000.
Hypothesis HI : w + r <= INT_MAX.
Hypothesis HRound : 0 <= round <= 2 * r.
Hypothesis HF : forall u, 0 <= u < w -> 0 <= f u < 256 ^ k.

Let fd := makeFastDiv (2 * r + 1).
Let part (x : Z) : Z := sums (2 * r) (fun d => f (edge w (x - r + d))).
Let g (x : Z) : Z := rowMean r round w f x.

Lemma fe : forall i, 0 <= f (edge w i) < 256 ^ k.
Proof. intros i. apply HF. apply edge_range. exact HW. Qed.

Lemma part_in : forall x, part x + f (edge w (x + r)) = rowSum r w f x.
Proof.
  intros x. unfold part, rowSum. change (sumL (map (fun d => f (edge w (x - r + d))) (zseq (2 * r + 1)))) with (sums (2 * r + 1) (fun d => f (edge w (x - r + d)))).
  rewrite sums_succ by lia. replace (x - r + 2 * r) with (x + r) by lia. reflexivity.
Qed.
Lemma part_out : forall x, rowSum r w f x - f (edge w (x - r)) = part (x + 1).
Proof.
  intros x. unfold part, rowSum. change (sumL (map (fun d => f (edge w (x - r + d))) (zseq (2 * r + 1)))) with (sums (2 * r + 1) (fun d => f (edge w (x - r + d)))).
  rewrite sums_cons by lia. rewrite Z.add_0_r. rewrite (sums_ext _ (fun d => f (edge w (x + 1 - r + d))) (fun d => f (edge w (x - r + (d + 1))))); [lia|].
  intros d _. do 2 f_equal. lia.
Qed.
Lemma part_bound : forall x, 0 <= part x <= 2 * r * (256 ^ k - 1).
Proof. intros x. apply sums_bound; [lia|]. intros d _. pose proof (fe (x - r + d)). lia. Qed.
Lemma rowSum_bound : forall x, 0 <= rowSum r w f x <= (2 * r + 1) * (256 ^ k - 1).
Proof. intros x. rewrite <- part_in. pose proof (part_bound x). pose proof (fe (x + r)). lia. Qed.
Lemma small : (2 * r + 1) * (256 ^ k - 1) + 2 * r < 2 ^ 32.
Proof. change (2 ^ 32) with 4294967296. destruct (pow_k k HK) as [-> | ->]; lia. Qed.

Lemma mean_range : forall x, 0 <= g x < 256 ^ k.
Proof.
  intros x. unfold g, rowMean. pose proof (rowSum_bound x). split; [apply Z.div_pos; lia|]. apply Z.div_lt_upper_bound; lia.
Qed.

Lemma out_value : forall x, fastDivU32 (wrapu32 (rowSum r w f x + round)) fd mod 256 ^ k = g x.
Proof.
  intros x. pose proof (rowSum_bound x). pose proof small. rewrite u32_id by lia. unfold fd. rewrite fastDiv_exact by (change (2 ^ 32) with 4294967296; lia).
  apply Z.mod_small. apply (mean_range x).
Qed.

(** The starting sum. *)
Lemma firstAcc_spec : forall ld, (forall i, 0 <= i < w -> ld i = Ok (f i)) -> firstAcc w r ld = Ok (part 0).
Proof.
  intros ld L. unfold firstAcc. rewrite L by lia. unfold obind at 1.
  pose proof (HF 0 ltac:(lia)) as F0. assert (C : chk32 (r * f 0) = Ok (r * f 0)).
  { unfold chk32. replace (in_intb (r * f 0)) with true; [reflexivity|]. symmetry. apply in_intb_spec. unfold in_int.
    change INT_MIN with (-2147483648). change INT_MAX with 2147483647. destruct (pow_k k HK) as [E|E]; rewrite E in F0; nia. }
  rewrite C. unfold obind at 1. set (h := fun d => f (edge w (0 - r + d))).
  assert (S0 : r * f 0 = sums r h).
  { symmetry. apply sums_const; [lia|]. intros d D. unfold h, edge. f_equal. lia. }
  assert (SB : forall n, 0 <= n <= 2 * r -> 0 <= sums n h < 2 ^ 32).
  { intros n N. pose proof small. pose proof (sums_bound n h (256 ^ k - 1) ltac:(lia)) as B. specialize (B ltac:(intros d _; unfold h; pose proof (fe (0 - r + d)); lia)).
    assert (n * (256 ^ k - 1) <= (2 * r) * (256 ^ k - 1)) by (apply Z.mul_le_mono_nonneg_r; destruct (pow_k k HK); lia). lia. }
  rewrite S0, u32_id by (apply SB; lia).
  destruct (forZ_inv (fun x acc => acc = sums (r + x) h) (fun x acc => obind (ld (Z.min x (w - 1))) (fun v => Ok (wrapu32 (acc + v)))) r (sums r h)) as (s' & E & Q); [lia | f_equal; lia | |].
  - intros x acc X ->. rewrite L by lia. unfold obind. eexists. split; [reflexivity|].
    assert (HV : f (Z.min x (w - 1)) = h (r + x)) by (unfold h, edge; f_equal; lia).
    rewrite HV. rewrite <- sums_succ by lia. rewrite u32_id by (apply SB; lia). f_equal. lia.
  - rewrite E, Q. unfold part. f_equal. replace (r + r) with (2 * r) by lia. reflexivity.
Qed.

Lemma step_acc : forall x v, v = f (edge w (x + r)) -> wrapu32 (part x + v) = rowSum r w f x.
Proof. intros x v ->. rewrite part_in. pose proof (rowSum_bound x). pose proof small. apply u32_id. lia. Qed.
Lemma step_sub : forall x v, v = f (edge w (x - r)) -> wrapu32 (rowSum r w f x - v) = part (x + 1).
Proof. intros x v ->. rewrite part_out. pose proof (part_bound (x + 1)). pose proof small. apply u32_id. lia. Qed.

Lemma chk_ahead : forall x, 0 <= x < w -> chk32 (x + r) = Ok (x + r).
Proof.
  intros x X. unfold chk32. replace (in_intb (x + r)) with true; [reflexivity|]. symmetry. apply in_intb_spec. unfold in_int.
  change INT_MIN with (-2147483648). lia.
Qed.
Lemma ahead_ok : forall x, 0 <= x < w -> ahead w r x = Ok (edge w (x + r)).
Proof. intros x X. unfold ahead. rewrite chk_ahead by lia. unfold obind, edge. f_equal. lia. Qed.

Section Plain.
Variables (s : pbuf) (so d : Z) (m0 : pbuf).
Hypothesis HS : forall i, 0 <= i < w -> loadS k s (so + i * k) = Ok (f i).
Hypothesis HD : 0 <= d.
Hypothesis HB : d + w * k <= b_size m0.

Let inv (x : Z) (st : Z * pbuf) : Prop := fst st = part x /\ wrote k d g m0 x (snd st).

Lemma blurStep_ok : forall plus minus x st, 0 <= x < w -> plus x = Ok (edge w (x + r)) -> minus x = edge w (x - r) -> inv x st ->
  exists st', blurStep k fd round s so d plus minus x st = Ok st' /\ inv (x + 1) st'.
Proof.
  intros plus minus x (acc & m) X P M (A & W). cbn [fst snd] in *. unfold blurStep. rewrite P. unfold obind at 1.
  rewrite HS by (apply edge_range; lia). unfold obind at 1. cbn [fst snd]. rewrite A, step_acc by reflexivity.
  unfold outAt. rewrite out_value.
  destruct (wrote_step k d g m0 w x m (g x) ltac:(lia) HD HB X eq_refl (mean_range x) W) as (m' & E & W').
  rewrite E. unfold obind at 1. rewrite M, HS by (apply edge_range; lia). unfold obind. eexists. split; [reflexivity|].
  split; [cbn [fst snd]; apply step_sub; reflexivity | exact W'].
Qed.

Theorem blurH_spec : exists m, blurH k w r fd round s so d m0 = Ok m /\ wrote k d g m0 w m.
Proof.
  unfold blurH. rewrite firstAcc_spec by exact HS. unfold obind at 1.
  destruct (forFrom_inv inv (blurStep k fd round s so d (ahead w r) (fun x => Z.max (x - r) 0)) 0 (Z.min r w) (part 0, m0)) as (st & E & I).
  - lia.
  - split; [reflexivity | apply wrote_0].
  - intros x st X Q. apply blurStep_ok; [lia | apply ahead_ok; lia | unfold edge; lia | exact Q].
  - rewrite E. unfold obind at 1. destruct (Z.ltb_spec r w) as [L|L].
    + rewrite Z.min_l in I by lia.
      assert (MID : exists st', forFrom r (w - r) (blurStep k fd round s so d (fun x => chk32 (x + r)) (fun x => x - r)) st = Ok st' /\ inv (Z.max (w - r) r) st').
      { destruct (Z.le_gt_cases r (w - r)) as [C|C].
        - rewrite Z.max_l by lia. apply forFrom_inv; [lia | exact I |].
          intros x t X Q. apply blurStep_ok; [lia | rewrite chk_ahead by lia; unfold edge; f_equal; lia | unfold edge; lia | exact Q].
        - rewrite Z.max_r by lia. exists st. split; [|exact I]. unfold forFrom. replace (Z.to_nat (w - r - r)) with O by lia. reflexivity. }
      destruct MID as (st' & -> & I'). unfold obind at 1.
      destruct (forFrom_inv inv (blurStep k fd round s so d (ahead w r) (fun x => Z.max (x - r) 0)) (Z.max (w - r) r) w st') as (st2 & E2 & I2).
      * lia.
      * exact I'.
      * intros x t X Q. apply blurStep_ok; [lia | apply ahead_ok; lia | unfold edge; lia | exact Q].
      * rewrite E2. unfold obind. eexists. split; [reflexivity|]. apply I2.
    + rewrite Z.min_r in I by lia. eexists. split; [reflexivity|]. apply I.
Qed.
End Plain.

Section Ring.
Variables (d : Z) (m0 ring0 : pbuf).
Hypothesis HD : 0 <= d.
Hypothesis HB : d + w * k <= b_size m0.
Hypothesis HS : forall i, 0 <= i < w -> leval (Z.to_nat k) (b_data m0) (d + i * k) = f i.
Let R := Z.min (r + 1) w.
Hypothesis HRing : b_size ring0 = k * R.

Let kept (x : Z) (ring : pbuf) : Prop :=
  forall j, 0 <= j -> x - R <= j < x -> leval (Z.to_nat k) (b_data ring) (j mod R * k) = f j.
Let inv (x : Z) (st : rstate) : Prop :=
  r_acc st = part x /\ wrote k d g m0 x (r_mem st) /\ b_size (r_ring st) = k * R /\ r_wr st = x mod R /\ kept x (r_ring st).

Lemma mod_next : forall x, 0 <= x -> (if x mod R + 1 =? R then 0 else x mod R + 1) = (x + 1) mod R.
Proof.
  intros x X. assert (RP : 0 < R) by (unfold R; lia). pose proof (Z.div_mod x R ltac:(lia)) as E. pose proof (Z.mod_pos_bound x R RP) as B.
  destruct (Z.eqb_spec (x mod R + 1) R) as [Q|Q].
  - apply (Z.mod_unique_pos _ R (x / R + 1)); nia.
  - apply (Z.mod_unique_pos _ R (x / R)); lia.
Qed.
Lemma mod_apart : forall x j, x - R < j < x -> j mod R <> x mod R.
Proof.
  intros x j J E. assert (RP : 0 < R) by (unfold R; lia).
  assert (Z0 : (x - j) mod R = 0). { rewrite Zminus_mod, E, Z.sub_diag. apply Z.mod_0_l. lia. }
  rewrite Z.mod_small in Z0 by lia. lia.
Qed.

Lemma ringStep_ok : forall plus minus x st, 0 <= x < w -> plus x = Ok (edge w (x + r)) ->
  (forall t, kept (x + 1) (r_ring t) -> b_size (r_ring t) = k * R -> r_wr t = (x + 1) mod R -> minus t = Ok (f (edge w (x - r)))) -> inv x st ->
  exists st', ringStep k fd round d R plus minus x st = Ok st' /\ inv (x + 1) st'.
Proof.
  intros plus minus x st X P M (A & W & SZ & WR & KP). unfold ringStep. assert (RP : 0 < R) by (unfold R; lia).
  rewrite (wrote_rest k d g m0 w x (r_mem st) x ltac:(lia) HD HB ltac:(lia) ltac:(lia) W). unfold obind at 1. rewrite HS by lia.
  pose proof (Z.mod_pos_bound x R RP) as XB.
  destruct (storeS_spec k (r_ring st) (r_wr st * k) (f x) ltac:(lia) ltac:(nia) ltac:(rewrite SZ, WR; nia)) as (rg & E & S1 & S2 & S3).
  rewrite E. unfold obind at 1. rewrite P. unfold obind at 1.
  assert (AH : x <= edge w (x + r) < w) by (unfold edge; lia).
  rewrite (wrote_rest k d g m0 w x (r_mem st) (edge w (x + r)) ltac:(lia) HD HB ltac:(lia) AH W). unfold obind at 1. rewrite HS by lia.
  rewrite A, step_acc by reflexivity. unfold outAt. rewrite out_value.
  destruct (wrote_step k d g m0 w x (r_mem st) (g x) ltac:(lia) HD HB X eq_refl (mean_range x) W) as (m' & E2 & W').
  rewrite E2. unfold obind at 1. rewrite WR, mod_next by lia.
  assert (KP' : kept (x + 1) rg).
  { intros j J0 J. destruct (Z.eq_dec j x) as [->|NE].
    - rewrite <- WR. apply leval_stored; [lia | apply HF; lia | exact S2].
    - rewrite <- (KP j) by lia. apply leval_ext. intros i I. rewrite Z2Nat.id in I by lia. apply S3.
      pose proof (mod_apart x j ltac:(lia)). rewrite WR. destruct (Z.lt_ge_cases (j mod R) (x mod R)); [left|right]; nia. }
  rewrite M; [| exact KP' | cbn [r_ring]; lia | reflexivity]. unfold obind. eexists. split; [reflexivity|].
  unfold inv. cbn [r_acc r_mem r_ring r_wr]. split; [apply step_sub; reflexivity|]. split; [exact W'|]. split; [lia|]. split; [reflexivity | exact KP'].
Qed.

Lemma oldest_ok : forall x t, r < w -> r <= x < w -> kept (x + 1) (r_ring t) -> b_size (r_ring t) = k * R -> r_wr t = (x + 1) mod R ->
  oldest k t = Ok (f (edge w (x - r))).
Proof.
  intros x t RW X KP SZ WR. assert (RV : R = r + 1) by (unfold R; lia). unfold oldest.
  pose proof (Z.mod_pos_bound (x + 1) R ltac:(lia)).
  rewrite loadS_ok by (rewrite ?SZ, WR; nia). rewrite WR.
  assert (MM : (x + 1) mod R = (x - r) mod R). { replace (x + 1) with (x - r + 1 * R) by lia. apply Z.mod_add. lia. }
  rewrite MM, KP by lia. do 2 f_equal. unfold edge. lia.
Qed.

Theorem blurRing_spec : exists m ring, blurRing k w r fd round d (m0, ring0) = Ok (m, ring) /\ wrote k d g m0 w m /\ b_size ring = b_size ring0.
Proof.
  unfold blurRing. cbn [fst snd]. assert (LD : forall i, 0 <= i < w -> loadS k m0 (d + i * k) = Ok (f i)).
  { intros i I. rewrite loadS_ok by nia. rewrite HS by lia. reflexivity. }
  assert (L0 : loadS k m0 d = Ok (f 0)) by (rewrite <- (LD 0) by lia; f_equal; lia).
  rewrite L0. unfold obind at 1. rewrite firstAcc_spec by exact LD. unfold obind at 1.
  fold R. destruct (forFrom_inv inv (ringStep k fd round d R (ahead w r) (fun _ => Ok (f 0))) 0 (Z.min r w) (mkR (part 0) m0 ring0 0)) as (st & E & I).
  - lia.
  - unfold inv. cbn [r_acc r_mem r_ring r_wr]. split; [reflexivity|]. split; [apply wrote_0|]. split; [exact HRing|]. split; [symmetry; apply Z.mod_0_l; unfold R; lia|].
    intros j J0 J. lia.
  - intros x st X Q. apply ringStep_ok; [lia | apply ahead_ok; lia | | exact Q]. intros t _ _ _. do 2 f_equal. unfold edge. lia.
  - rewrite E. unfold obind at 1. rewrite HRing. destruct (Z.ltb_spec r w) as [L|L].
    + rewrite Z.min_l in I by lia.
      assert (MID : exists st', forFrom r (w - r) (ringStep k fd round d R (fun x => chk32 (x + r)) (oldest k)) st = Ok st' /\ inv (Z.max (w - r) r) st').
      { destruct (Z.le_gt_cases r (w - r)) as [C|C].
        - rewrite Z.max_l by lia. apply forFrom_inv; [lia | exact I |].
          intros x t X Q. apply ringStep_ok; [lia | rewrite chk_ahead by lia; unfold edge; f_equal; lia | | exact Q].
          intros t' K1 K2 K3. apply oldest_ok; [lia | lia | exact K1 | exact K2 | exact K3].
        - rewrite Z.max_r by lia. exists st. split; [|exact I]. unfold forFrom. replace (Z.to_nat (w - r - r)) with O by lia. reflexivity. }
      destruct MID as (st' & -> & I'). unfold obind at 1.
      destruct (forFrom_inv inv (ringStep k fd round d R (ahead w r) (oldest k)) (Z.max (w - r) r) w st') as (st2 & E2 & I2).
      * lia.
      * exact I'.
      * intros x t X Q. apply ringStep_ok; [lia | apply ahead_ok; lia | | exact Q].
        intros t' K1 K2 K3. apply oldest_ok; [lia | lia | exact K1 | exact K2 | exact K3].
      * rewrite E2. unfold obind. do 2 eexists. split; [reflexivity|]. destruct I2 as (_ & W & S & _). split; assumption.
    + rewrite Z.min_r in I by lia. do 2 eexists. split; [reflexivity|]. destruct I as (_ & W & S & _). split; assumption.
Qed.
End Ring.
End Row.

(** Radius 1. *)
Section R1.
Variables (k w round : Z) (f : Z -> Z).
Hypothesis HK : 1 <= k <= 2.
Hypothesis HW : 3 <= w.
Hypothesis HRound : 0 <= round <= 2.
Hypothesis HF : forall u, 0 <= u < w -> 0 <= f u < 256 ^ k.
Let g (x : Z) : Z := rowMean 1 round w f x.

Lemma three : forall x, rowSum 1 w f x = f (edge w (x - 1)) + f (edge w x) + f (edge w (x + 1)).
Proof.
  intros x. unfold rowSum. change (zseq (2 * 1 + 1)) with [0; 1; 2]. cbn [map]. unfold sumL. cbn [fold_right].
  replace (x - 1 + 0) with (x - 1) by lia. replace (x - 1 + 1) with x by lia. replace (x - 1 + 2) with (x + 1) by lia. lia.
Qed.

Variables (same : bool) (s : pbuf) (so d : Z) (m0 : pbuf).
Hypothesis HD : 0 <= d.
Hypothesis HB : d + w * k <= b_size m0.
Hypothesis HL : forall x m i, 0 <= x -> x <= i < w -> wrote k d g m0 x m -> loadS k (if same then m else s) (so + i * k) = Ok (f i).

Lemma r1_put : forall x m acc, 0 <= x < w -> acc = f (edge w (x - 1)) + f (edge w x) + f (edge w (x + 1)) -> wrote k d g m0 x m ->
  exists m', storeS k m (d + x * k) ((wrapu32 (acc + round) / 3) mod 256 ^ k) = Ok m' /\ wrote k d g m0 (x + 1) m'.
Proof.
  intros x m acc X A W. rewrite <- three in A.
  assert (GR : 0 <= g x < 256 ^ k) by (apply (mean_range k w 1 round f); lia || assumption).
  apply (wrote_step k d g m0 w x m); try assumption; try lia.
  subst acc. assert (0 <= rowSum 1 w f x + round < 2 ^ 32).
  { rewrite three. pose proof (HF (edge w (x - 1)) ltac:(apply edge_range; lia)). pose proof (HF (edge w x) ltac:(apply edge_range; lia)). pose proof (HF (edge w (x + 1)) ltac:(apply edge_range; lia)).
    change (2 ^ 32) with 4294967296. destruct (pow_k k HK) as [E|E]; rewrite E in *; lia. }
  rewrite u32_id by lia. change (rowSum 1 w f x + round) with (rowSum 1 w f x + round). unfold g in *. unfold rowMean in *. change (2 * 1 + 1) with 3 in *. rewrite Z.mod_small by lia. reflexivity.
Qed.

Lemma u32f : forall a, 0 <= a <= 4 * 65536 -> wrapu32 a = a.
Proof. intros. apply u32_id. change (2 ^ 32) with 4294967296. lia. Qed.

Theorem blurR1_spec : exists m, blurR1 k w round same s so d m0 = Ok m /\ wrote k d g m0 w m.
Proof.
  assert (FB : forall u, 0 <= u < w -> 0 <= f u <= 65535).
  { intros u U. pose proof (HF u U). destruct (pow_k k HK) as [E|E]; rewrite E in *; lia. }
  assert (ED : forall i, 0 <= i < w -> edge w i = i) by (intros; unfold edge; lia).
  unfold blurR1. cbv beta zeta. rewrite (HL 0) by (try apply wrote_0; lia). unfold obind at 1. rewrite (HL 0) by (try apply wrote_0; lia). unfold obind at 1.
  pose proof (FB 0 ltac:(lia)). pose proof (FB 1 ltac:(lia)). pose proof (FB 2 ltac:(lia)).
  rewrite (u32f (f 0 * 2 + f 1)) by lia.
  destruct (r1_put 0 m0 (f 0 * 2 + f 1)) as (m1 & E1 & W1); [lia | replace (edge w (0 - 1)) with 0 by (unfold edge; lia); rewrite !ED by lia; change (0 + 1) with 1; lia | apply wrote_0 |].
  rewrite E1. unfold obind at 1. rewrite (u32f (f 0 * 2 + f 1 - f 0)) by lia.
  rewrite (HL 1) by (try exact W1; lia). unfold obind at 1. rewrite (u32f (f 0 * 2 + f 1 - f 0 + f 2)) by lia.
  destruct (r1_put 1 m1 (f 0 * 2 + f 1 - f 0 + f 2)) as (m2 & E2 & W2); [lia | rewrite !ED by lia; change (1 - 1) with 0; change (1 + 1) with 2; lia | exact W1 |].
  rewrite E2. unfold obind at 1. rewrite (u32f (f 0 * 2 + f 1 - f 0 + f 2 - f 0)) by lia.
  set (body := fun (x : Z) (st : Z * Z * Z * pbuf) => _).
  set (e := if Z.odd w then w - 1 else w - 2).
  assert (LOOP : exists st, forStep 2 (w - 2) 2 body (f 0 * 2 + f 1 - f 0 + f 2 - f 0, f 2, f 1, m2) = Ok st /\
    exists m, st = (f (e - 1) + f e, f e, f (e - 1), m) /\ wrote k d g m0 e m).
  { assert (EV : exists n, e = 2 + 2 * n /\ 0 <= n).
    { exists (if Z.odd w then w / 2 - 1 else w / 2 - 2). unfold e. pose proof (Zmod_odd w). pose proof (Z.div_mod w 2 ltac:(lia)).
      destruct (Z.odd w); lia. }
    assert (EB : w - 2 <= e <= w - 1) by (unfold e; destruct (Z.odd w); lia).
    destruct EV as (n & EV & N). unfold forStep.
    replace ((w - 2 - 2 + 2 - 1) / 2) with n.
    2:{ symmetry. symmetry. apply (Z.div_unique_pos _ 2 n (w - 2 - 2 + 2 - 1 - 2 * n)); lia. }
    destruct (forZ_inv (fun j (st : Z * Z * Z * pbuf) => exists m, st = (f (2 + j * 2 - 1) + f (2 + j * 2), f (2 + j * 2), f (2 + j * 2 - 1), m) /\ wrote k d g m0 (2 + j * 2) m)
      (fun j => body (2 + j * 2)) n (f 0 * 2 + f 1 - f 0 + f 2 - f 0, f 2, f 1, m2)) as (st & E & m & Q & W).
    - exact N.
    - exists m2. split; [|exact W2]. change (2 + 0 * 2) with 2. change (2 - 1) with 1. f_equal; f_equal. f_equal. lia.
    - intros j st J (m & -> & W). unfold body. set (x := 2 + j * 2) in *. assert (XB : 2 <= x /\ x + 2 <= w - 1 + 0) by (unfold x; lia).
      pose proof (FB x ltac:(lia)). pose proof (FB (x - 1) ltac:(lia)). pose proof (FB (x + 1) ltac:(lia)). pose proof (FB (x + 2) ltac:(lia)).
      rewrite (HL x) by (try exact W; lia). unfold obind at 1. rewrite (u32f (f (x - 1) + f x + f (x + 1))) by lia.
      destruct (r1_put x m (f (x - 1) + f x + f (x + 1))) as (m3 & E3 & W3); [lia | rewrite !ED by lia; reflexivity | exact W |].
      rewrite E3. unfold obind at 1. rewrite (u32f (f (x - 1) + f x + f (x + 1) - f (x - 1))) by lia.
      rewrite (HL (x + 1)) by (try exact W3; lia). unfold obind at 1. rewrite (u32f (f (x - 1) + f x + f (x + 1) - f (x - 1) + f (x + 2))) by lia.
      destruct (r1_put (x + 1) m3 (f (x - 1) + f x + f (x + 1) - f (x - 1) + f (x + 2))) as (m4 & E4 & W4);
        [lia | rewrite !ED by lia; replace (x + 1 - 1) with x by lia; replace (x + 1 + 1) with (x + 2) by lia; lia | exact W3 |].
      rewrite E4. unfold obind. eexists. split; [reflexivity|]. exists m4. replace (2 + (j + 1) * 2) with (x + 2) by (unfold x; lia).
      replace (x + 1 + 1) with (x + 2) in W4 by lia. split; [|exact W4]. replace (x + 2 - 1) with (x + 1) by lia.
      rewrite u32f by lia. f_equal; f_equal. f_equal. lia.
    - exists st. split; [exact E|]. exists m. replace (2 + n * 2) with e in * by lia. split; assumption. }
  destruct LOOP as (st & -> & m & -> & W). unfold obind at 1.
  destruct (Z.odd w) eqn:OD; unfold e in *.
  - pose proof (FB (w - 1 - 1) ltac:(lia)). pose proof (FB (w - 1) ltac:(lia)). rewrite (u32f (f (w - 1 - 1) + f (w - 1) + f (w - 1))) by lia.
    destruct (r1_put (w - 1) m (f (w - 1 - 1) + f (w - 1) + f (w - 1))) as (m3 & E3 & W3);
      [lia | replace (edge w (w - 1 + 1)) with (w - 1) by (unfold edge; lia); rewrite !ED by lia; lia | exact W |].
    exists m3. split; [exact E3|]. replace (w - 1 + 1) with w in W3 by lia. exact W3.
  - assert (W4 : 4 <= w) by (destruct (Z.eq_dec w 3) as [->|]; [discriminate OD | lia]).
    pose proof (FB (w - 2 - 1) ltac:(lia)). pose proof (FB (w - 2) ltac:(lia)). pose proof (FB (w - 1) ltac:(lia)).
    rewrite (HL (w - 2)) by (try exact W; lia). unfold obind at 1. rewrite (u32f (f (w - 2 - 1) + f (w - 2) + f (w - 1))) by lia.
    destruct (r1_put (w - 2) m (f (w - 2 - 1) + f (w - 2) + f (w - 1))) as (m3 & E3 & W3);
      [lia | rewrite !ED by lia; replace (w - 2 + 1) with (w - 1) by lia; reflexivity | exact W |].
    rewrite E3. unfold obind. rewrite (u32f (f (w - 2 - 1) + f (w - 2) + f (w - 1) - f (w - 2 - 1))) by lia.
    rewrite (u32f (f (w - 2 - 1) + f (w - 2) + f (w - 1) - f (w - 2 - 1) + f (w - 1))) by lia.
    replace (w - 2 + 1) with (w - 1) in W3 by lia.
    destruct (r1_put (w - 1) m3 (f (w - 2 - 1) + f (w - 2) + f (w - 1) - f (w - 2 - 1) + f (w - 1))) as (m5 & E5 & W5);
      [lia | replace (edge w (w - 1 + 1)) with (w - 1) by (unfold edge; lia); rewrite !ED by lia; replace (w - 1 - 1) with (w - 2) by lia; lia | exact W3 |].
    exists m5. split; [exact E5|]. replace (w - 1 + 1) with w in W5 by lia. exact W5.
Qed.
End R1.
