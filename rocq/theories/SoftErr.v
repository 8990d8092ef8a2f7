(** How far rounded results are from the exact ones. *)
From Coq Require Import ZArith List Lia Bool QArith Qabs Qpower Lqa.
From Coq Require Import SpecFloat.
From Verif Require Import Common Soft SoftLemmas SoftBounds SoftNum.
Import ListNotations.
Open Scope Z_scope.

(** ** The position of N/D relative to the integer [m] *)
Definition inLoc (N D m : Z) (l : location) : Prop :=
  match l with
  | loc_Exact => N = m * D
  | loc_Inexact Lt => m * D < N /\ 2 * N < (2 * m + 1) * D
  | loc_Inexact Eq => 2 * N = (2 * m + 1) * D
  | loc_Inexact Gt => (2 * m + 1) * D < 2 * N /\ N < (m + 1) * D
  end.
Definition recAt (N D : Z) (r : shr_record) : Prop := 0 <= shr_m r /\ inLoc N D (shr_m r) (loc_of_shr_record r).

Lemma shr_1_at : forall N D r, 0 < D -> recAt N D r -> recAt N (2 * D) (shr_1 r).
Proof.
  intros N D [m b t] DP (M & L). cbn [shr_m] in *.
  destruct m as [|p|p]; [| |lia].
  - split; [destruct b, t; cbn; lia|]. destruct b, t; cbn [shr_1 shr_m loc_of_shr_record orb inLoc] in *; lia.
  - destruct p as [p|p|]; (split; [destruct b, t; cbn; lia|]); destruct b, t; cbn [shr_1 shr_m loc_of_shr_record orb inLoc] in *;
      try change (Z.pos p~1) with (2 * Z.pos p + 1) in *; try change (Z.pos p~0) with (2 * Z.pos p) in *; lia.
Qed.

Lemma iter_at : forall p N D r, 0 < D -> recAt N D r -> recAt N (2 ^ Z.pos p * D) (SpecFloat.iter_pos shr_1 p r).
Proof.
  induction p as [p IH|p IH|]; intros N D r DP R; cbn [SpecFloat.iter_pos].
  - assert (P1 : 0 < 2 ^ Z.pos p) by (apply Z.pow_pos_nonneg; lia).
    replace (2 ^ Z.pos p~1 * D) with (2 * (2 ^ Z.pos p * (2 ^ Z.pos p * D))).
    + replace (2 * (2 ^ Z.pos p * (2 ^ Z.pos p * D))) with (2 ^ Z.pos p * (2 ^ Z.pos p * (2 * D))) by ring.
      apply IH; [nia|]. apply IH; [nia|]. apply shr_1_at; assumption.
    + replace (Z.pos p~1) with (Z.pos p + Z.pos p + 1) by lia. rewrite !Z.pow_add_r by lia. change (2 ^ 1) with 2. ring.
  - assert (P1 : 0 < 2 ^ Z.pos p) by (apply Z.pow_pos_nonneg; lia).
    replace (2 ^ Z.pos p~0 * D) with (2 ^ Z.pos p * (2 ^ Z.pos p * D)).
    + apply IH; [nia|]. apply IH; [nia|]. assumption.
    + replace (Z.pos p~0) with (Z.pos p + Z.pos p) by lia. rewrite !Z.pow_add_r by lia. ring.
  - change (2 ^ 1) with 2. apply shr_1_at; assumption.
Qed.

Lemma shr_at : forall N D r e n, 0 < D -> recAt N D r -> recAt N (2 ^ Z.max 0 n * D) (fst (shr r e n)).
Proof.
  intros N D r e n DP R. destruct n as [|p|p]; cbn [shr fst].
  - rewrite Z.max_id, Z.pow_0_r, Z.mul_1_l. exact R.
  - rewrite Z.max_r by lia. apply iter_at; assumption.
  - rewrite Z.max_l by lia. rewrite Z.pow_0_r, Z.mul_1_l. exact R.
Qed.

Lemma rec_at : forall N D m l, 0 <= m -> inLoc N D m l -> recAt N D (shr_record_of_loc m l).
Proof. intros N D m l M L. split; [rewrite rec_of_loc; exact M|]. rewrite rec_of_loc. destruct l as [|[]]; exact L. Qed.

Lemma rne_near : forall N D m l, 0 <= m -> inLoc N D m l -> 2 * Z.abs (round_nearest_even m l * D - N) <= Z.abs D.
Proof. intros N D m l M L. destruct l as [|[]]; cbn [inLoc round_nearest_even] in *; [lia | destruct (Z.even m); lia | lia | lia]. Qed.

Section Prec.
Variables prec emax : Z.
Hypothesis P : 1 < prec.

(** The rounding: within half a unit, and a carry costs nothing. *)
Lemma aux_near : forall s M e l N D, 0 < D -> 0 < M -> inLoc N D M l -> prec <= Zdigits2 M ->
  SpecFloat.emin prec emax <= Zdigits2 M + e - prec -> Zdigits2 M + e + 1 <= emax ->
  exists q e', binary_round_aux prec emax s M e l = S754_finite s q e' /\ let n := Zdigits2 M - prec in
    e + n <= e' <= e + n + 1 /\ 2 * Z.abs (Z.pos q * 2 ^ (e' - (e + n)) * (2 ^ n * D) - N) <= 2 ^ n * D /\ Zdigits2 (Z.pos q) = prec.
Proof.
  intros s M e l N D DP MP L DM E1 E2. cbv zeta. set (n := Zdigits2 M - prec).
  assert (P2 : 0 < 2 ^ n) by (apply Z.pow_pos_nonneg; lia).
  unfold binary_round_aux. unfold shr_fexp at 1.
  assert (FE : fexp prec emax (Zdigits2 M + e) - e = n) by (unfold fexp, n; lia). rewrite FE.
  pose proof (shr_at N D _ e n DP (rec_at N D M l ltac:(lia) L)) as (RM & RL).
  pose proof (shr_div (shr_record_of_loc M l) e n ltac:(rewrite rec_of_loc; lia)) as SD.
  pose proof (shr_exp (shr_record_of_loc M l) e n) as SE.
  rewrite rec_of_loc in SD. rewrite Z.max_r in RL, SD, SE by lia.
  destruct (shr _ _ _) as (r & e1). cbn [fst snd] in *. subst e1.
  pose proof (rne_near _ _ _ _ RM RL) as NR. set (m1 := round_nearest_even (shr_m r) (loc_of_shr_record r)) in *.
  rewrite (Z.abs_eq (2 ^ n * D)) in NR by nia.
  assert (MB : 2 ^ (prec - 1) <= shr_m r < 2 ^ prec).
  { rewrite SD. destruct M as [|p|p]; [lia| |lia]. pose proof (digits2_low p) as D1. pose proof (digits2_bound p) as D2. change (Z.pos (digits2_pos p)) with (Zdigits2 (Z.pos p)) in *.
    split; [apply Z.div_le_lower_bound | apply Z.div_lt_upper_bound]; try lia; rewrite <- Z.pow_add_r by lia.
    - replace (n + (prec - 1)) with (Zdigits2 (Z.pos p) - 1) by lia. exact D1.
    - replace (n + prec) with (Zdigits2 (Z.pos p)) by lia. exact D2. }
  assert (M1 : shr_m r <= m1 <= shr_m r + 1) by (unfold m1; destruct (loc_of_shr_record r) as [|[]]; cbn [round_nearest_even]; try destruct (Z.even (shr_m r)); lia).
  assert (PP : 0 < 2 ^ (prec - 1)) by (apply Z.pow_pos_nonneg; lia).
  destruct (Z.eq_dec m1 (2 ^ prec)) as [C|C].
  - assert (DG : Zdigits2 m1 = prec + 1).
    { rewrite C. replace (2 ^ prec) with (1 * 2 ^ prec) by lia. rewrite Zdigits2_mul by lia. change (Zdigits2 1) with 1. lia. }
    unfold shr_fexp. rewrite DG. replace (fexp prec emax (prec + 1 + (e + n)) - (e + n)) with 1 by (unfold fexp, n in *; lia).
    cbn [shr SpecFloat.iter_pos shr_record_of_loc].
    assert (HM : shr_m (shr_1 {| shr_m := m1; shr_r := false; shr_s := false |}) = 2 ^ (prec - 1)).
    { rewrite shr_1_div by (cbn; lia). cbn [shr_m]. rewrite C. replace (2 ^ prec) with (2 ^ (prec - 1) * 2); [apply Z.div_mul; lia|]. change 2 with (2 ^ 1) at 2. rewrite <- Z.pow_add_r by lia. f_equal. lia. }
    rewrite HM. destruct (2 ^ (prec - 1)) as [|q|q] eqn:Q; try lia. destruct (Z.leb_spec (e + n + 1) (emax - prec)); [|unfold n in *; lia].
    exists q, (e + n + 1). split; [reflexivity|]. split; [lia|]. replace (e + n + 1 - (e + n)) with 1 by lia. rewrite <- Q.
    split.
    + replace (2 ^ (prec - 1) * 2 ^ 1) with m1; [exact NR|]. rewrite C, <- Z.pow_add_r by lia. f_equal. lia.
    + replace (2 ^ (prec - 1)) with (1 * 2 ^ (prec - 1)) by lia. rewrite Zdigits2_mul by lia. change (Zdigits2 1) with 1. lia.
  - assert (DG : Zdigits2 m1 = prec).
    { pose proof (Zdigits2_le m1 prec ltac:(lia) ltac:(lia)) as U. destruct (Zdigits2_bound m1 ltac:(lia)) as (_ & V).
      destruct (Z_lt_le_dec (Zdigits2 m1) prec); [|lia]. assert (2 ^ Zdigits2 m1 <= 2 ^ (prec - 1)) by (apply Z.pow_le_mono_r; lia). lia. }
    unfold shr_fexp. rewrite DG. replace (fexp prec emax (prec + (e + n)) - (e + n)) with 0 by (unfold fexp, n in *; lia).
    cbn [shr shr_record_of_loc shr_m].
    destruct m1 as [|q|q]; try lia. destruct (Z.leb_spec (e + n) (emax - prec)); [|unfold n in *; lia].
    exists q, (e + n). split; [reflexivity|]. split; [lia|]. rewrite Z.sub_diag, Z.pow_0_r, Z.mul_1_r. split; [exact NR | exact DG].
Qed.
End Prec.

(** ** Magnitudes as rational numbers *)
Definition tw (e : Z) : Q := (Qpower (2 # 1) e)%Q.
Definition mg (m : positive) (e : Z) : Q := (inject_Z (Z.pos m) * tw e)%Q.
(** [x] is [a] up to factors [lo] and [hi]. *)
Definition near (lo hi a x : Q) : Prop := (lo * a <= x /\ x <= hi * a)%Q.

Lemma tw_pos : forall e, (0 < tw e)%Q.
Proof. intros e. apply Qpower_0_lt. reflexivity. Qed.
Lemma tw_add : forall a b, (tw (a + b) == tw a * tw b)%Q.
Proof. intros a b. apply Qpower_plus. discriminate. Qed.
Lemma tw_Z : forall n, 0 <= n -> (tw n == inject_Z (2 ^ n))%Q.
Proof. intros n N. symmetry. apply (Zpower_Qpower 2 n). exact N. Qed.
Lemma inj_le : forall a b, a <= b -> (inject_Z a <= inject_Z b)%Q.
Proof. intros a b H. rewrite <- Zle_Qle. exact H. Qed.
Lemma inj_lt : forall a b, a < b -> (inject_Z a < inject_Z b)%Q.
Proof. intros a b H. rewrite <- Zlt_Qlt. exact H. Qed.
Lemma mg_pos : forall m e, (0 < mg m e)%Q.
Proof. intros m e. apply Qmult_lt_0_compat; [apply (inj_lt 0); lia | apply tw_pos]. Qed.

Lemma Qmult_le_0 : forall a b, (0 <= a -> 0 <= b -> 0 <= a * b)%Q.
Proof. intros a b A B. apply (Qmult_le_0_compat a b A B). Qed.

Lemma near_le : forall lo hi lo' hi' a x, (0 <= a)%Q -> (lo' <= lo)%Q -> (hi <= hi')%Q -> near lo hi a x -> near lo' hi' a x.
Proof.
  intros lo hi lo' hi' a x A L H (N1 & N2). split.
  - apply Qle_trans with (lo * a)%Q; [apply Qmult_le_compat_r; assumption | exact N1].
  - apply Qle_trans with (hi * a)%Q; [exact N2 | apply Qmult_le_compat_r; assumption].
Qed.
Lemma near_eq : forall lo hi a a' x x', (a == a')%Q -> (x == x')%Q -> near lo hi a x -> near lo hi a' x'.
Proof. intros lo hi a a' x x' A X (N1 & N2). unfold near. rewrite <- A, <- X. split; assumption. Qed.
Lemma near_mul : forall l1 h1 a x l2 h2 b y, (0 <= l1)%Q -> (0 <= l2)%Q -> (0 <= a)%Q -> (0 <= b)%Q -> near l1 h1 a x -> near l2 h2 b y ->
  near (l1 * l2) (h1 * h2) (a * b) (x * y).
Proof.
  intros l1 h1 a x l2 h2 b y L1 L2 A B (X1 & X2) (Y1 & Y2).
  assert (U1 : (0 <= l1 * a)%Q) by (apply Qmult_le_0; assumption). assert (U2 : (0 <= l2 * b)%Q) by (apply Qmult_le_0; assumption).
  split.
  - setoid_replace (l1 * l2 * (a * b))%Q with ((l1 * a) * (l2 * b))%Q by ring. apply Qmult_le_compat_nonneg; split; assumption.
  - setoid_replace (h1 * h2 * (a * b))%Q with ((h1 * a) * (h2 * b))%Q by ring.
    apply Qmult_le_compat_nonneg; split; try assumption; [apply Qle_trans with (l1 * a)%Q | apply Qle_trans with (l2 * b)%Q]; assumption.
Qed.
Lemma near_trans : forall l1 h1 a x l2 h2 y, (0 <= l2)%Q -> (0 <= h2)%Q -> near l1 h1 a x -> near l2 h2 x y -> near (l2 * l1) (h2 * h1) a y.
Proof.
  intros l1 h1 a x l2 h2 y L2 H2 (X1 & X2) (Y1 & Y2). split.
  - apply Qle_trans with (l2 * x)%Q; [|exact Y1]. setoid_replace (l2 * l1 * a)%Q with (l1 * a * l2)%Q by ring. setoid_replace (l2 * x)%Q with (x * l2)%Q by ring. apply Qmult_le_compat_r; assumption.
  - apply Qle_trans with (h2 * x)%Q; [exact Y2|]. setoid_replace (h2 * h1 * a)%Q with (h1 * a * h2)%Q by ring. setoid_replace (h2 * x)%Q with (x * h2)%Q by ring. apply Qmult_le_compat_r; assumption.
Qed.
Lemma near_inv : forall lo hi a x, (0 < lo)%Q -> (0 < a)%Q -> near lo hi a x -> near (/ hi) (/ lo) (/ a) (/ x).
Proof.
  intros lo hi a x L A (X1 & X2). assert (LA : (0 < lo * a)%Q) by (apply Qmult_lt_0_compat; assumption).
  assert (XP : (0 < x)%Q) by (apply Qlt_le_trans with (lo * a)%Q; assumption).
  assert (HP : (0 < hi)%Q). { apply Qmult_lt_r with a; [exact A|]. setoid_replace (0 * a)%Q with 0%Q by ring. apply Qlt_le_trans with x; assumption. }
  assert (HA : (0 < hi * a)%Q) by (apply Qmult_lt_0_compat; assumption).
  split; [setoid_replace (/ hi * / a)%Q with (/ (hi * a))%Q by (field; split; apply Qnot_eq_sym, Qlt_not_eq; assumption) |
          setoid_replace (/ lo * / a)%Q with (/ (lo * a))%Q by (field; split; apply Qnot_eq_sym, Qlt_not_eq; assumption)].
  - apply Qle_shift_inv_l; [exact XP|]. setoid_replace (/ (hi * a) * x)%Q with (x / (hi * a))%Q by (field; split; apply Qnot_eq_sym, Qlt_not_eq; assumption).
    apply Qle_shift_div_r; [exact HA|]. setoid_replace (1 * (hi * a))%Q with (hi * a)%Q by ring. exact X2.
  - apply Qle_shift_inv_r; [exact XP|]. setoid_replace (/ (lo * a) * x)%Q with (x / (lo * a))%Q by (field; split; apply Qnot_eq_sym, Qlt_not_eq; assumption).
    apply Qle_shift_div_l; [exact LA|]. setoid_replace (1 * (lo * a))%Q with (lo * a)%Q by ring. exact X1.
Qed.

Section Rel.
Variables prec emax : Z.
Hypothesis P : 1 < prec.
Definition ulo : Q := (1 - tw (- prec))%Q.
Definition uhi : Q := (1 + tw (- prec))%Q.

Lemma aux_rel : forall s M e l N D, 0 < D -> 0 < M -> inLoc N D M l -> prec <= Zdigits2 M ->
  SpecFloat.emin prec emax <= Zdigits2 M + e - prec -> Zdigits2 M + e + 1 <= emax ->
  exists q e', binary_round_aux prec emax s M e l = S754_finite s q e' /\ Zdigits2 (Z.pos q) = prec /\
    Zdigits2 M + e - prec <= e' <= Zdigits2 M + e - prec + 1 /\
    near ulo uhi (inject_Z N / inject_Z D * tw e) (mg q e').
Proof.
  intros s M e l N D DP MP L DM E1 E2. destruct (aux_near prec emax P s M e l N D DP MP L DM E1 E2) as (q & e' & R & E & B & DG). cbv zeta in *.
  exists q, e'. split; [exact R|]. split; [exact DG|]. split; [lia|]. set (n := Zdigits2 M - prec) in *.
  set (Y := Z.pos q * 2 ^ (e' - (e + n))) in *.
  assert (NM : M * D <= N) by (destruct l as [|[]]; cbn [inLoc] in L; nia).
  assert (ML : 2 ^ (n + prec - 1) <= M).
  { destruct M as [|p|p]; [lia| |lia]. pose proof (digits2_low p). change (Z.pos (digits2_pos p)) with (Zdigits2 (Z.pos p)) in *. replace (n + prec - 1) with (Zdigits2 (Z.pos p) - 1) by lia. assumption. }
  assert (DQ : (0 < inject_Z D)%Q) by (apply (inj_lt 0); exact DP).
  assert (MGE : (mg q e' == inject_Z Y * inject_Z (2 ^ n) * tw e)%Q).
  { unfold mg, Y. rewrite inject_Z_mult. rewrite <- !tw_Z by lia. replace e' with ((e' - (e + n)) + (n + e)) at 1 by lia. rewrite !tw_add. ring. }
  (* the distance *)
  set (X := (inject_Z N / inject_Z D)%Q).
  assert (XD : (X * inject_Z D == inject_Z N)%Q) by (unfold X; field; apply Qnot_eq_sym, Qlt_not_eq; exact DQ).
  assert (B1 : (2 * (inject_Z Y * inject_Z (2 ^ n) - X) <= inject_Z (2 ^ n))%Q).
  { apply Qmult_le_r with (inject_Z D); [exact DQ|]. setoid_replace (2 * (inject_Z Y * inject_Z (2 ^ n) - X) * inject_Z D)%Q with (2 * (inject_Z Y * inject_Z (2 ^ n) * inject_Z D - X * inject_Z D))%Q by ring.
    rewrite XD. change 2%Q with (inject_Z 2). rewrite <- !inject_Z_mult. unfold Qminus. rewrite <- inject_Z_opp, <- inject_Z_plus, <- inject_Z_mult. apply inj_le. lia. }
  assert (B2 : (2 * (X - inject_Z Y * inject_Z (2 ^ n)) <= inject_Z (2 ^ n))%Q).
  { apply Qmult_le_r with (inject_Z D); [exact DQ|]. setoid_replace (2 * (X - inject_Z Y * inject_Z (2 ^ n)) * inject_Z D)%Q with (2 * (X * inject_Z D - inject_Z Y * inject_Z (2 ^ n) * inject_Z D))%Q by ring.
    rewrite XD. change 2%Q with (inject_Z 2). rewrite <- !inject_Z_mult. unfold Qminus. rewrite <- inject_Z_opp, <- inject_Z_plus, <- inject_Z_mult. apply inj_le. lia. }
  assert (B3 : (inject_Z (2 ^ n) <= 2 * tw (- prec) * X)%Q).
  { assert (MX : (inject_Z M <= X)%Q). { apply Qmult_le_r with (inject_Z D); [exact DQ|]. rewrite XD, <- inject_Z_mult. apply inj_le. exact NM. }
    apply Qle_trans with (2 * tw (- prec) * inject_Z M)%Q.
    - apply Qle_trans with (2 * tw (- prec) * inject_Z (2 ^ (n + prec - 1)))%Q.
      + rewrite <- !tw_Z by lia. replace (n + prec - 1) with (n + prec + -1) by lia. rewrite !tw_add.
        setoid_replace (2 * tw (- prec) * (tw n * tw prec * tw (-1)))%Q with ((tw (- prec) * tw prec) * (2 * tw (-1)) * tw n)%Q by ring.
        rewrite <- tw_add. replace (- prec + prec) with 0 by lia. change (tw 0) with 1%Q. setoid_replace (2 * tw (-1))%Q with (1 # 1)%Q by reflexivity. setoid_replace (1 * (1 # 1) * tw n)%Q with (tw n) by ring. apply Qle_refl.
      + setoid_replace (2 * tw (- prec) * inject_Z (2 ^ (n + prec - 1)))%Q with (inject_Z (2 ^ (n + prec - 1)) * (2 * tw (- prec)))%Q by ring.
        setoid_replace (2 * tw (- prec) * inject_Z M)%Q with (inject_Z M * (2 * tw (- prec)))%Q by ring.
        apply Qmult_le_compat_r; [apply inj_le; exact ML|]. apply Qmult_le_0; [discriminate | apply Qlt_le_weak, tw_pos].
    - setoid_replace (2 * tw (- prec) * inject_Z M)%Q with (inject_Z M * (2 * tw (- prec)))%Q by ring.
      setoid_replace (2 * tw (- prec) * X)%Q with (X * (2 * tw (- prec)))%Q by ring.
      apply Qmult_le_compat_r; [exact MX|]. apply Qmult_le_0; [discriminate | apply Qlt_le_weak, tw_pos]. }
  unfold near, ulo, uhi. rewrite MGE. set (Yn := (inject_Z Y * inject_Z (2 ^ n))%Q) in *. clearbody Yn. set (tn := inject_Z (2 ^ n)) in *. clearbody tn. set (u := tw (- prec)) in *. clearbody u X.
  pose proof (tw_pos e) as TE. split.
  - setoid_replace ((1 - u) * (X * tw e))%Q with (((1 - u) * X) * tw e)%Q by ring. apply Qmult_le_compat_r; [|apply Qlt_le_weak; exact TE].
    setoid_replace ((1 - u) * X)%Q with (X - u * X)%Q by ring. set (uX := (u * X)%Q) in *. setoid_replace (2 * u * X)%Q with (2 * uX)%Q in B3 by (unfold uX; ring). clearbody uX. lra.
  - setoid_replace ((1 + u) * (X * tw e))%Q with (((1 + u) * X) * tw e)%Q by ring. apply Qmult_le_compat_r; [|apply Qlt_le_weak; exact TE].
    setoid_replace ((1 + u) * X)%Q with (X + u * X)%Q by ring. set (uX := (u * X)%Q) in *. setoid_replace (2 * u * X)%Q with (2 * uX)%Q in B3 by (unfold uX; ring). clearbody uX. lra.
Qed.

Lemma exact_loc : forall m, inLoc m 1 m loc_Exact.
Proof. intros m. cbn. lia. Qed.
Lemma over1 : forall a, (inject_Z a / inject_Z 1 == inject_Z a)%Q.
Proof. intros a. field. Qed.

Lemma round_rel : forall s m e, let d := Zdigits2 (Z.pos m) in SpecFloat.emin prec emax <= d + e - prec -> d + e + 1 <= emax ->
  exists q e', binary_round prec emax s m e = S754_finite s q e' /\ Zdigits2 (Z.pos q) = prec /\ d + e - prec <= e' <= d + e - prec + 1 /\ near ulo uhi (mg m e) (mg q e').
Proof.
  intros s m e d E1 E2. unfold binary_round.
  pose proof (shl_align_spec m e (fexp prec emax (Z.pos (digits2_pos m) + e))) as S. cbv zeta in S. destruct S as (S1 & S2).
  change (Z.pos (digits2_pos m)) with d in *. assert (FE : fexp prec emax (d + e) = d + e - prec) by (unfold fexp; lia). rewrite FE in *.
  destruct (shl_align m e (d + e - prec)) as (mz & ez). cbn [fst snd] in *. subst ez. set (ez := Z.min e (d + e - prec)) in *.
  assert (DZ : Zdigits2 (Z.pos mz) = d + (e - ez)) by (rewrite S2, Zdigits2_mul by lia; reflexivity).
  destruct (aux_rel s (Z.pos mz) ez loc_Exact (Z.pos mz) 1) as (q & e' & R & DQ & EE & NR); try lia; [apply exact_loc|].
  exists q, e'. split; [exact R|]. split; [exact DQ|]. split; [lia|]. eapply near_eq; [|apply Qeq_refl|exact NR]. rewrite over1. unfold mg.
  rewrite S2, inject_Z_mult, <- tw_Z by lia. rewrite <- Qmult_assoc, <- tw_add. replace (e - ez + ez) with e by lia. reflexivity.
Qed.

Lemma digits_mul : forall m1 m2, Zdigits2 (Z.pos m1) = prec -> Zdigits2 (Z.pos m2) = prec -> 2 * prec - 1 <= Zdigits2 (Z.pos (m1 * m2)) <= 2 * prec.
Proof.
  intros m1 m2 D1 D2. pose proof (digits2_low m1) as L1. pose proof (digits2_low m2) as L2. pose proof (digits2_bound m1) as U1. pose proof (digits2_bound m2) as U2.
  change (Z.pos (digits2_pos m1)) with (Zdigits2 (Z.pos m1)) in *. change (Z.pos (digits2_pos m2)) with (Zdigits2 (Z.pos m2)) in *. rewrite D1, D2 in *.
  rewrite Pos2Z.inj_mul. assert (U : Z.pos m1 * Z.pos m2 < 2 ^ (2 * prec)).
  { replace (2 * prec) with (prec + prec) by lia. rewrite Z.pow_add_r by lia. apply Z.mul_lt_mono_nonneg; lia. }
  assert (L : 2 ^ (2 * prec - 2) <= Z.pos m1 * Z.pos m2).
  { replace (2 * prec - 2) with (prec - 1 + (prec - 1)) by lia. rewrite Z.pow_add_r by lia. apply Z.mul_le_mono_nonneg; try lia; apply Z.pow_nonneg; lia. }
  split; [|apply Zdigits2_le; lia]. destruct (Zdigits2_bound (Z.pos m1 * Z.pos m2) ltac:(lia)) as (Z0 & B).
  destruct (Z_le_gt_dec (2 * prec - 1) (Zdigits2 (Z.pos m1 * Z.pos m2))); [assumption|].
  assert (2 ^ Zdigits2 (Z.pos m1 * Z.pos m2) <= 2 ^ (2 * prec - 2)) by (apply Z.pow_le_mono_r; lia). lia.
Qed.

Lemma mul_rel : forall s1 m1 e1 s2 m2 e2, Zdigits2 (Z.pos m1) = prec -> Zdigits2 (Z.pos m2) = prec ->
  SpecFloat.emin prec emax <= prec - 1 + e1 + e2 -> 2 * prec + e1 + e2 + 1 <= emax ->
  exists q e', SFmul prec emax (S754_finite s1 m1 e1) (S754_finite s2 m2 e2) = S754_finite (xorb s1 s2) q e' /\ Zdigits2 (Z.pos q) = prec /\
    prec - 1 + e1 + e2 <= e' <= prec + 1 + e1 + e2 /\ near ulo uhi (mg m1 e1 * mg m2 e2) (mg q e').
Proof.
  intros s1 m1 e1 s2 m2 e2 D1 D2 E1 E2. cbn [SFmul]. pose proof (digits_mul m1 m2 D1 D2) as D.
  destruct (aux_rel (xorb s1 s2) (Z.pos (m1 * m2)) (e1 + e2) loc_Exact (Z.pos (m1 * m2)) 1) as (q & e' & R & DQ & EE & NR); try lia; [apply exact_loc|].
  exists q, e'. split; [exact R|]. split; [exact DQ|]. split; [lia|]. eapply near_eq; [|apply Qeq_refl|exact NR]. rewrite over1. unfold mg.
  rewrite Pos2Z.inj_mul, inject_Z_mult, tw_add. ring.
Qed.

Lemma new_loc : forall D q r, 0 < D -> 0 <= r < D -> inLoc (q * D + r) D q (new_location D r).
Proof.
  intros D q r DP R. unfold new_location, new_location_even, new_location_odd.
  assert (ZB : Zeq_bool r 0 = (r =? 0)) by (unfold Zeq_bool, Z.eqb; destruct r; reflexivity).
  destruct (Z.even D) eqn:EV; cbv beta; rewrite ZB; destruct (Z.eqb_spec r 0); cbn [inLoc]; try lia.
  - destruct (Z.compare_spec (2 * r) D); lia.
  - assert (OD : exists h, D = 2 * h + 1). { exists (D / 2). pose proof (Z.div_mod D 2 ltac:(lia)). pose proof (Zmod_odd D). rewrite <- Z.negb_even, EV in H0. cbn in H0. lia. }
    destruct OD as (h & H). destruct (Z.compare_spec (2 * r + 1) D); lia.
Qed.

Lemma div_rel : forall s1 m1 e1 s2 m2 e2, Zdigits2 (Z.pos m1) = prec -> Zdigits2 (Z.pos m2) = prec ->
  SpecFloat.emin prec emax <= e1 - e2 - prec -> e1 - e2 + 2 <= emax ->
  exists q e', SFdiv prec emax (S754_finite s1 m1 e1) (S754_finite s2 m2 e2) = S754_finite (xorb s1 s2) q e' /\ Zdigits2 (Z.pos q) = prec /\
    e1 - e2 - prec <= e' <= e1 - e2 - prec + 2 /\ near ulo uhi (mg m1 e1 / mg m2 e2) (mg q e').
Proof.
  intros s1 m1 e1 s2 m2 e2 D1 D2 E1 E2. cbn [SFdiv]. unfold SFdiv_core_binary. rewrite D1, D2.
  assert (FE : Z.min (fexp prec emax (prec + e1 - (prec + e2))) (e1 - e2) = e1 - e2 - prec) by (unfold fexp; lia). rewrite FE.
  replace (e1 - e2 - (e1 - e2 - prec)) with prec by lia. destruct prec as [|pp|pp] eqn:PE; try lia. rewrite <- PE in *. rewrite Z.shiftl_mul_pow2 by lia.
  pose proof (Z.div_eucl_eq (Z.pos m1 * 2 ^ prec) (Z.pos m2) ltac:(lia)) as DE.
  pose proof (Z.mod_pos_bound (Z.pos m1 * 2 ^ prec) (Z.pos m2) ltac:(lia)) as RB. unfold Z.modulo in RB.
  destruct (Z.div_eucl (Z.pos m1 * 2 ^ prec) (Z.pos m2)) as (q & r).
  pose proof (digits2_low m1) as L1. pose proof (digits2_low m2) as L2. pose proof (digits2_bound m1) as U1. pose proof (digits2_bound m2) as U2.
  change (Z.pos (digits2_pos m1)) with (Zdigits2 (Z.pos m1)) in *. change (Z.pos (digits2_pos m2)) with (Zdigits2 (Z.pos m2)) in *. rewrite D1, D2 in *.
  assert (TP : 2 ^ prec = 2 * 2 ^ (prec - 1)) by (rewrite <- Z.pow_succ_r by lia; f_equal; lia).
  assert (PP : 0 < 2 ^ (prec - 1)) by (apply Z.pow_pos_nonneg; lia). set (h := 2 ^ (prec - 1)) in *.
  assert (QL : h <= q) by nia. assert (QU : q < 2 ^ (prec + 1)).
  { replace (2 ^ (prec + 1)) with (4 * h); [nia|]. unfold h. change 4 with (2 ^ 2). rewrite <- Z.pow_add_r by lia. f_equal. lia. }
  assert (DQ : prec <= Zdigits2 q <= prec + 1).
  { split; [|apply Zdigits2_le; lia]. destruct (Zdigits2_bound q ltac:(lia)) as (Z0 & B). destruct (Z_le_gt_dec prec (Zdigits2 q)); [assumption|].
    assert (2 ^ Zdigits2 q <= h) by (apply Z.pow_le_mono_r; lia). lia. }
  pose proof (new_loc (Z.pos m2) q r ltac:(lia) RB) as NL.
  destruct (aux_rel (xorb s1 s2) q (e1 - e2 - prec) _ (q * Z.pos m2 + r) (Z.pos m2) ltac:(lia) ltac:(lia) NL) as (x & e' & R & DX & EE & NR); try lia.
  exists x, e'. split; [exact R|]. split; [exact DX|]. split; [lia|]. eapply near_eq; [|apply Qeq_refl|exact NR].
  replace (q * Z.pos m2 + r) with (Z.pos m1 * 2 ^ prec) by lia. unfold mg. rewrite inject_Z_mult, <- tw_Z by lia.
  assert (TE2 : (tw e2 * tw (- e2) == 1)%Q) by (rewrite <- tw_add; replace (e2 + - e2) with 0 by lia; reflexivity).
  assert (TE3 : (tw prec * tw (- prec) == 1)%Q) by (rewrite <- tw_add; replace (prec + - prec) with 0 by lia; reflexivity).
  replace (e1 - e2 - prec) with (e1 + - e2 + - prec) by lia. rewrite !tw_add.
  pose proof (tw_pos e2) as T2. assert (MP : (0 < inject_Z (Z.pos m2))%Q) by (apply (inj_lt 0); lia).
  setoid_replace (inject_Z (Z.pos m1) * tw prec / inject_Z (Z.pos m2) * (tw e1 * tw (- e2) * tw (- prec)))%Q
    with (inject_Z (Z.pos m1) * tw e1 * tw (- e2) / inject_Z (Z.pos m2) * (tw prec * tw (- prec)))%Q by (field; apply Qnot_eq_sym, Qlt_not_eq; exact MP).
  rewrite TE3. setoid_replace (tw (- e2)) with (/ tw e2)%Q.
  - field. split; apply Qnot_eq_sym, Qlt_not_eq; assumption.
  - apply (Qmult_inj_l _ _ (tw e2)); [apply Qnot_eq_sym, Qlt_not_eq; exact T2|]. rewrite TE2. symmetry. apply Qmult_inv_r. apply Qnot_eq_sym, Qlt_not_eq; exact T2.
Qed.
End Rel.

(** Rounding to an integer. *)
Lemma mag_rne_near : forall m e, (2 * (mg m e - inject_Z (mag_rne m e)) <= 1)%Q /\ (2 * (inject_Z (mag_rne m e) - mg m e) <= 1)%Q.
Proof.
  intros m e. unfold mag_rne, mg. destruct (Z.leb_spec 0 e) as [E|E].
  - rewrite tw_Z by lia. rewrite <- inject_Z_mult. split; ring_simplify; discriminate.
  - set (d := 2 ^ (- e)). assert (DP : 0 < d) by (apply Z.pow_pos_nonneg; lia). cbv zeta.
    assert (TD : (tw e * inject_Z d == 1)%Q) by (unfold d; rewrite <- tw_Z, <- tw_add by lia; replace (e + - e) with 0 by lia; reflexivity).
    assert (DQ : (0 < inject_Z d)%Q) by (apply (inj_lt 0); exact DP).
    assert (ME : (inject_Z (Z.pos m) * tw e * inject_Z d == inject_Z (Z.pos m))%Q) by (rewrite <- Qmult_assoc, TD; ring).
    pose proof (Z.div_mod (Z.pos m) d ltac:(lia)) as DM. pose proof (Z.mod_pos_bound (Z.pos m) d DP) as MB.
    set (q := Z.pos m / d) in *. set (r := Z.pos m mod d) in *.
    set (v := if 2 * r <? d then q else if d <? 2 * r then q + 1 else if Z.even q then q else q + 1).
    assert (V : 2 * Z.abs (v * d - Z.pos m) <= d).
    { unfold v. destruct (Z.ltb_spec (2 * r) d); [lia|]. destruct (Z.ltb_spec d (2 * r)); [lia|]. destruct (Z.even q); lia. }
    split; (apply Qmult_le_r with (inject_Z d); [exact DQ|]).
    + setoid_replace (2 * (inject_Z (Z.pos m) * tw e - inject_Z v) * inject_Z d)%Q with (2 * (inject_Z (Z.pos m) * tw e * inject_Z d - inject_Z v * inject_Z d))%Q by ring.
      rewrite ME. setoid_replace (1 * inject_Z d)%Q with (inject_Z d) by ring. unfold Qminus. rewrite <- !inject_Z_mult, <- inject_Z_opp, <- inject_Z_plus. change 2%Q with (inject_Z 2). rewrite <- inject_Z_mult. apply inj_le. lia.
    + setoid_replace (2 * (inject_Z v - inject_Z (Z.pos m) * tw e) * inject_Z d)%Q with (2 * (inject_Z v * inject_Z d - inject_Z (Z.pos m) * tw e * inject_Z d))%Q by ring.
      rewrite ME. setoid_replace (1 * inject_Z d)%Q with (inject_Z d) by ring. unfold Qminus. rewrite <- !inject_Z_mult, <- inject_Z_opp, <- inject_Z_plus. change 2%Q with (inject_Z 2). rewrite <- inject_Z_mult. apply inj_le. lia.
Qed.
