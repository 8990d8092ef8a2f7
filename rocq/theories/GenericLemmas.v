(** Rows painted in pieces; neighbourhoods and taps. *)
From Coq Require Import ZArith List Lia Bool.
From Coq Require Import SpecFloat.
From Verif Require Import Common FormatSpec Format FrameSpec Frame ImageSpec PlaneMem Spatial
  SpatialLemmas Pixel PixelLemmas PixelSpec Lut LutLemmas Soft GenericSpec Generic.
Import ListNotations.
Open Scope Z_scope.

(** ** Rows *)

Section Row.
Variables (k w base : Z) (val : Z -> Z).
Hypothesis K : 1 <= k.

(** The samples in [P] have their value; nothing outside the row changed. *)
Definition rowed (P : Z -> Prop) (m0 m : pbuf) : Prop :=
  b_size m = b_size m0 /\
  (forall x, 0 <= x < w -> P x -> forall j, 0 <= j < k -> b_data m (base + x * k + j) = byteOf (val x) j) /\
  (forall a, a < base \/ base + w * k <= a -> b_data m a = b_data m0 a).

Lemma rowed_store : forall P m0 m x, 0 <= base -> base + w * k <= b_size m0 -> 0 <= x < w -> rowed P m0 m ->
  exists m', storeS k m (base + x * k) (val x) = Ok m' /\ rowed (fun u => P u \/ u = x) m0 m'.
Proof.
  intros P m0 m x B S X (R1 & R2 & R3).
  assert (x * k + k <= w * k) by nia. assert (0 <= x * k) by nia.
  destruct (storeS_spec k m (base + x * k) (val x) K ltac:(lia)) as (m' & E & S' & A & O).
  { rewrite R1. lia. }
  exists m'. split; [exact E|]. split; [congruence|]. split.
  - intros u U [Pu| ->] j J.
    + destruct (Z.eq_dec u x) as [->|N]; [apply A; exact J|].
      rewrite O; [apply R2; auto|]. assert (u * k + k <= x * k \/ x * k + k <= u * k) by nia. lia.
    + apply A. exact J.
  - intros a Ha. rewrite O by lia. apply R3. exact Ha.
Qed.

Definition segOk (s : seg) : Prop :=
  let '(lo, hi, v) := s in 0 <= lo /\ hi <= w /\ forall x, lo <= x < hi -> v x = Ok (val x).
Definition covered (segs : list seg) (x : Z) : Prop :=
  Exists (fun s : seg => fst (fst s) <= x < snd (fst s)) segs.

Lemma paintSeg_ok : forall s P m0 m, 0 <= base -> base + w * k <= b_size m0 -> segOk s -> rowed P m0 m ->
  exists m', paintSeg k base s m = Ok m' /\ rowed (fun u => P u \/ fst (fst s) <= u < snd (fst s)) m0 m'.
Proof.
  intros ((lo & hi) & v) P m0 m B S (L & H & V) R. cbn [paintSeg fst snd].
  destruct (Z.le_gt_cases hi lo) as [E|E].
  - exists m. unfold forFrom. replace (Z.to_nat (hi - lo)) with O by lia. split; [reflexivity|].
    destruct R as (R1 & R2 & R3). split; [exact R1|]. split; [|exact R3]. intros x X [Px|Q]; [auto | lia].
  - destruct (forFrom_inv (fun x m' => rowed (fun u => P u \/ lo <= u < x) m0 m')
      (fun x m' => obind (v x) (fun u => storeS k m' (base + x * k) u)) lo hi m ltac:(lia)) as (m' & F & Q).
    + destruct R as (R1 & R2 & R3). split; [exact R1|]. split; [|exact R3]. intros x X [Px|Q]; [auto | lia].
    + intros x t X Rt. rewrite V by lia. cbn [obind].
      destruct (rowed_store _ m0 t x B S ltac:(lia) Rt) as (m' & E' & (Q1 & Q2 & Q3)). exists m'. split; [exact E'|].
      split; [exact Q1|]. split; [|exact Q3]. intros u U Pu. apply Q2; [exact U|].
      destruct Pu as [Pu|Pu]; [auto|]. destruct (Z.eq_dec u x); [auto|]. left. right. lia.
    + exists m'. split; [exact F | exact Q].
Qed.

Lemma paintRow_ok : forall segs P m0 m, 0 <= base -> base + w * k <= b_size m0 -> Forall segOk segs -> rowed P m0 m ->
  exists m', paintRow k base segs m = Ok m' /\ rowed (fun u => P u \/ covered segs u) m0 m'.
Proof.
  induction segs as [|s segs IH]; intros P m0 m B S F R.
  - exists m. split; [reflexivity|]. destruct R as (R1 & R2 & R3). split; [exact R1|]. split; [|exact R3].
    intros x X [Px|Q]; [auto|]. inversion Q.
  - inversion F as [|s' l' F1 F2]; subst. destruct (paintSeg_ok s P m0 m B S F1 R) as (m1 & E1 & R1).
    destruct (IH _ m0 m1 B S F2 R1) as (m2 & E2 & R2). exists m2. cbn [paintRow]. rewrite E1. cbn [obind]. split; [exact E2|].
    destruct R2 as (Q1 & Q2 & Q3). split; [exact Q1|]. split; [|exact Q3]. intros x X Px. apply Q2; [exact X|].
    destruct Px as [Px|Px]; [auto|]. unfold covered in *. apply Exists_cons in Px. tauto.
Qed.

Lemma paintRow_spec : forall segs m, 0 <= base -> base + w * k <= b_size m -> Forall segOk segs ->
  (forall x, 0 <= x < w -> covered segs x) ->
  exists m', paintRow k base segs m = Ok m' /\ rowed (fun _ => True) m m'.
Proof.
  intros segs m B S F C. destruct (paintRow_ok segs (fun _ => False) m m B S F) as (m' & E & (Q1 & Q2 & Q3)).
  - split; [reflexivity|]. split; [intros; contradiction | reflexivity].
  - exists m'. split; [exact E|]. split; [exact Q1|]. split; [|exact Q3]. intros x X _. apply Q2; auto.
Qed.
End Row.

(** Planes painted row by row. *)
Lemma paintRows_spec : forall k w h g segs dst, 1 <= k -> wfPlane k dst w h ->
  (forall y, 0 <= y < h -> Forall (segOk w (fun x => g x y)) (segs y) /\ forall x, 0 <= x < w -> covered (segs y) x) ->
  (forall x y, 0 <= x < w -> 0 <= y < h -> 0 <= g x y < 256 ^ k) ->
  exists m, paintRows k h segs dst = Ok m /\ b_size m = b_size (p_buf dst) /\
    same (imageOf k (mkPl (p_stride dst) m) w h) (mkI w h g).
Proof.
  intros k w h g segs dst K (W & H & S & B) V R. unfold paintRows. set (str := p_stride dst) in *.
  destruct (forZ_inv (fun y m => b_size m = b_size (p_buf dst) /\ painted k w h g str y 0 m)
    (fun y m => paintRow k (y * str) (segs y) m) h (p_buf dst) H) as (m & E & M1 & M2).
  - split; [reflexivity|]. intros u v U V' C. lia.
  - intros y m Y (M1 & M2). destruct (V y Y) as (F & C).
    destruct (paintRow_spec k w (y * str) (fun x => g x y) K (segs y) m ltac:(nia)) as (m' & E & Q1 & Q2 & Q3); auto.
    { rewrite M1, B. fold str. nia. }
    exists m'. split; [exact E|]. split; [congruence|].
    intros u v U V' D j J. assert (v < y \/ v = y) as [L| ->] by lia.
    + rewrite Q3; [apply M2; auto; lia|]. left. assert (u * k + k <= w * k) by nia. nia.
    + apply Q2; auto.
  - exists m. split; [exact E|]. split; [exact M1|]. apply (painted_image k w h g K str 0 m H R M2).
Qed.

(** ** Exactly once *)

Definition range (lo hi : Z) : list Z := map (fun i => lo + i) (zseq (hi - lo)).
Definition columns (segs : list seg) : list Z := flat_map (fun s : seg => range (fst (fst s)) (snd (fst s))) segs.

Lemma zseq_app : forall n m, 0 <= n -> 0 <= m -> zseq (n + m) = zseq n ++ map (fun i => n + i) (zseq m).
Proof.
  intros n m N M. pattern m. apply natlike_ind; [| | exact M].
  - rewrite Z.add_0_r. rewrite (zseq_nonpos 0) by lia. cbn [map]. rewrite app_nil_r. reflexivity.
  - intros x X IH. unfold Z.succ. rewrite Z.add_assoc, zseq_succ by lia. rewrite IH, (zseq_succ x) by lia.
    rewrite map_app, app_assoc. reflexivity.
Qed.

Lemma range_0 : forall n, range 0 n = zseq n.
Proof. intros n. unfold range. rewrite Z.sub_0_r. rewrite <- (map_id (zseq n)) at 2. apply map_ext. reflexivity. Qed.
Lemma range_nil : forall lo hi, hi <= lo -> range lo hi = [].
Proof. intros. unfold range. rewrite zseq_nonpos by lia. reflexivity. Qed.
Lemma range_app : forall a b c, a <= b <= c -> range a b ++ range b c = range a c.
Proof.
  intros a b c H. unfold range. replace (c - a) with ((b - a) + (c - b)) by lia. rewrite zseq_app by lia.
  rewrite map_app, map_map. f_equal. apply map_ext. intros. lia.
Qed.

(** ** Coordinates *)

Lemma wrapu32_id : forall x, 0 <= x < 2 ^ 32 -> wrapu32 x = x.
Proof. intros. unfold wrapu32. apply Z.mod_small. lia. Qed.

Lemma edge_in : forall n i, 0 < n -> 0 <= edge n i < n.
Proof. intros. unfold edge. lia. Qed.
Lemma edge_id : forall n i, 0 <= i < n -> edge n i = i.
Proof. intros. unfold edge. lia. Qed.
Lemma mirrored_in : forall n i, 0 < n -> 0 <= mirrored n i < n.
Proof. intros. unfold mirrored. apply edge_in. assumption. Qed.
Lemma mirrored_id : forall n i, 0 <= i < n -> mirrored n i = i.
Proof. intros n i H. unfold mirrored. destruct (Z.ltb_spec i 0); [lia|]. destruct (Z.leb_spec n i); [lia|]. apply edge_id; lia. Qed.

Lemma mirrorIndex_spec : forall pos len, 1 <= len < 2 ^ 30 -> - 2 ^ 30 <= pos < 2 ^ 31 -> mirrorIndex pos len = Ok (mirrored len pos).
Proof.
  assert (C : forall v, - 2 ^ 31 <= v < 2 ^ 31 -> chk32 v = Ok v).
  { intros v V. unfold chk32. replace (in_intb v) with true; [reflexivity|]. symmetry. apply in_intb_spec. unfold in_int, INT_MIN, INT_MAX. lia. }
  intros pos len L P. unfold mirrorIndex, mirrored, edge.
  destruct (Z.ltb_spec pos 0).
  - rewrite C by lia. cbn [obind]. f_equal. destruct (Z.ltb_spec (- pos - 1) 0); [lia|]. destruct (Z.leb_spec len (- pos - 1)); lia.
  - destruct (Z.leb_spec len pos).
    + rewrite C by lia. cbn [obind]. rewrite C by lia. cbn [obind]. rewrite C by lia. cbn [obind]. f_equal.
      destruct (Z.ltb_spec (2 * len - 1 - pos) 0); [lia|]. destruct (Z.leb_spec len (2 * len - 1 - pos)); lia.
    + cbn [obind]. f_equal. destruct (Z.ltb_spec pos 0); [lia|]. destruct (Z.leb_spec len pos); lia.
Qed.

(** The tap indices of the one dimensional kernels. *)
Lemma tapIndex_spec : forall support n lim j t, 0 <= support < n -> n < 2 ^ 31 -> 0 <= j < n -> 0 <= t <= 2 * support ->
  support + j - (n - 1) <= lim -> tapIndex support n lim j t = mirrored n (j + t - support).
Proof.
  intros support n lim j t S N J T L. unfold tapIndex, mirrored, edge, wrapu32.
  rewrite (Z.mod_small (n - 1 - j)) by lia. rewrite (Z.mod_small (n - 1)) by lia.
  destruct (Z.ltb_spec t support).
  - rewrite (Z.mod_small (support - t)) by lia.
    destruct (Z.ltb_spec j (support - t)); destruct (Z.ltb_spec (j + t - support) 0); try lia.
    + rewrite Z.mod_small by lia. lia.
    + rewrite Z.mod_small by lia. destruct (Z.leb_spec n (j + t - support)); lia.
  - rewrite (Z.mod_small (t - support)) by lia.
    destruct (Z.ltb_spec (n - 1 - j) (t - support)); destruct (Z.ltb_spec (j + t - support) 0); try lia;
      destruct (Z.leb_spec n (j + t - support)); try lia.
    + rewrite (Z.mod_small (t - support - (n - 1 - j))) by lia. rewrite Z.mod_small by lia. lia.
    + rewrite Z.mod_small by lia. lia.
Qed.
