(** The scanline kernels of convolution_impl.h: every lane holds the weighted sum of its own
    column, however the taps are split into passes. *)
From Coq Require Import ZArith List Lia Bool.
From Coq Require Import SpecFloat.
From Verif Require Import Common ImageSpec PlaneMem Spatial SpatialLemmas Pixel PixelLemmas PixelSpec Lut LutLemmas Soft GenericSpec Generic GenericLemmas GenericOps GenericPlanes
  Simd MergeSimdLemmas GenericSimd GenericSimdLanes GenericSimdFloat GenericSimdOps SquareSimd SquareSimdFloat SquareSimdLanes SquareSimdPlanes ConvSimd.
Import Soft ListNotations.
Open Scope Z_scope.

(** ** Lists of lanes *)

Lemma addTapsB : forall B w f g u, known B -> let nb := be_nb B in
  addTaps nb w (map f (seq 0 (8 * nb))) (map g (seq 0 (8 * nb))) (accOf nb u) =
  accOf nb (fun i => Simd.add32 (u i) (madd16 (join16 (f i) (g i)) (wrapu32 w))).
Proof. intros B w f g u [->|[->| ->]]; reflexivity. Qed.
Lemma zeroAccB : forall B, known B -> zeroAcc (be_nb B) = accOf (be_nb B) (fun _ => wrapu32 0).
Proof. intros B [->|[->| ->]]; reflexivity. Qed.
Lemma subB : forall B wb u, known B -> let nb := be_nb B in
  (zip Simd.sub32 (fst (accOf nb u)) (set32 B wb), zip Simd.sub32 (snd (accOf nb u)) (set32 B wb)) = accOf nb (fun i => Simd.sub32 (u i) (wrapu32 wb)).
Proof. intros B wb u [->|[->| ->]]; reflexivity. Qed.
Lemma outByteB_map : forall B g u, known B -> let nb := be_nb B in
  outByteB B g (accOf nb u) = map (fun i => satu8of16 (sats16of32 (cvtI (scaledB B g (cvtF (u i)))))) (seq 0 (8 * nb)).
Proof.
  intros B g u KB nb.
  assert (G : forall f : Z -> Z, let x := packs32 nb (map f (fst (accOf nb u))) (map f (snd (accOf nb u))) in let y := packus16 nb x x in
    firstn (8 * nb) (match nb with 1%nat => y | _ => permute64 (gather nb) y end) = map (fun i => satu8of16 (sats16of32 (f (u i)))) (seq 0 (8 * nb))).
  { intros f. unfold nb. destruct KB as [->|[->| ->]]; reflexivity. }
  exact (G (fun v => cvtI (scaledB B g (cvtF v)))).
Qed.
Lemma outWordB_map : forall B g u, known B -> let nb := be_nb B in
  outWordB B g (accOf nb u) =
  map (fun i => wunsignL B (wminL B (packWordL B (wsign32L B (cvtI (scaledB B g (cvtF (u i)))))) (wmaxvalL B (g_maxval g)))) (seq 0 (8 * nb)).
Proof.
  intros B g u KB nb.
  assert (G : forall f : Z -> Z, wunsign B (wmin B (packWord B (wsign32 B (map f (fst (accOf nb u)))) (wsign32 B (map f (snd (accOf nb u))))) (wmaxval B (g_maxval g))) =
    map (fun i => wunsignL B (wminL B (packWordL B (wsign32L B (f (u i)))) (wmaxvalL B (g_maxval g)))) (seq 0 (8 * nb))).
  { intros f. unfold nb. destruct KB as [->|[->| ->]]; reflexivity. }
  exact (G (fun v => cvtI (scaledB B g (cvtF v)))).
Qed.

Lemma seen_lane : forall k v, smallk k -> 0 <= v < 256 ^ k -> 0 <= lane k v < 65536 /\ s16 (lane k v) = seen k v /\ -32768 <= seen k v < 32768.
Proof.
  intros k v K R. unfold lane, seen. destruct K as [E|E]; subst k; cbn [Z.eqb Pos.eqb].
  - change (256 ^ 1) with 256 in R. split; [lia|]. split; [|lia]. unfold s16. destruct (Z.ltb_spec v 32768); lia.
  - change (256 ^ 2) with 65536 in R. split; [apply wrapu16_range|]. split; [|lia].
    unfold add16, wrapu16. rewrite Zplus_mod_idemp_r. apply (s16_wrap16 (v + -32768)). lia.
Qed.

Lemma sumL_snoc : forall (f : Z -> Z) u, 0 <= u -> sumL (map f (zseq (u + 1))) = sumL (map f (zseq u)) + f u.
Proof. intros f u U. rewrite zseq_succ, map_app, sumL_app by lia. unfold sumL at 2. cbn [map fold_right]. lia. Qed.

(** ** One pass over a block *)

Section Lanes.
Variables (B : backend) (k : Z) (g : gparams).
Hypothesis KB : known B.
Hypothesis K : smallk k.
Hypothesis LM : legalMatrix (g_matrix g).
Let nb := be_nb B.
Let cf (i : Z) : Z := GenericSpec.coef (g_matrix g) i.

Lemma accExt : forall u v, (forall i, u i = v i) -> accOf nb u = accOf nb v.
Proof. intros u v E. unfold accOf. f_equal; apply map_ext; exact E. Qed.
Lemma cfRange : forall i, -1023 <= cf i <= 1023.
Proof. intros i. apply coef_legal. exact LM. Qed.

(** How many taps a pass of [N] loads. *)
Definition loadsOf (N : Z) : Z := if 13 <=? N then 13 else 2 * ((N + 1) / 2).
Definition loaded (N : Z) (load : Z -> outcome vec) (v : Z -> nat -> Z) : Prop :=
  forall c, 0 <= c < loadsOf N -> load c = Ok (map (fun i => lane k (v c i)) (seq 0 (8 * nb))) /\ forall i, 0 <= v c i < 256 ^ k.

Lemma two_taps : forall N K0 t (v : Z -> nat -> Z) A, 0 <= t -> (forall c i, 0 <= c < loadsOf N -> 0 <= v c i < 256 ^ k) -> 2 * t + 1 < loadsOf N ->
  let S u i := sumL (map (fun c => weight g N K0 c * seen k (v c i)) (zseq u)) in
  addTaps nb (pairTaps (weight g N K0 (2 * t)) (weight g N K0 (2 * t + 1))) (map (fun i => lane k (v (2 * t) i)) (seq 0 (8 * nb))) (map (fun i => lane k (v (2 * t + 1) i)) (seq 0 (8 * nb)))
    (accOf nb (fun i => wrapu32 (A i + S (2 * t) i))) = accOf nb (fun i => wrapu32 (A i + S (2 * (t + 1)) i)).
Proof.
  intros N K0 t v A T R LT S. unfold nb. rewrite addTapsB by exact KB. apply accExt. intros i.
  rewrite madd_comm, pairTaps_inter. pose proof (seen_lane k (v (2 * t) i) K ltac:(apply R; lia)) as (L1 & L2 & L3). pose proof (seen_lane k (v (2 * t + 1) i) K ltac:(apply R; lia)) as (M1 & M2 & M3).
  assert (WR : forall c, -1023 <= weight g N K0 c <= 1023) by (intros c; unfold weight; destruct (c <? N); [apply cfRange | lia]).
  pose proof (WR (2 * t)). pose proof (WR (2 * t + 1)). rewrite madd_inter by lia. rewrite L2, M2, wrap_add. f_equal. unfold S.
  replace (2 * (t + 1)) with (2 * t + 1 + 1) by lia. rewrite !sumL_snoc by lia. lia.
Qed.

Lemma tapsPass_spec : forall N K0 load v A, 1 <= N <= 13 -> loaded N load v ->
  tapsPass B g N K0 load (accOf nb (fun i => wrapu32 (A i))) =
  Ok (accOf nb (fun i => wrapu32 (A i + sumL (map (fun c => cf (K0 + c) * seen k (v c i)) (zseq N))))).
Proof.
  intros N K0 load v A NR LD. unfold tapsPass. set (S u i := sumL (map (fun c => weight g N K0 c * seen k (v c i)) (zseq u))).
  assert (VR : forall c i, 0 <= c < loadsOf N -> 0 <= v c i < 256 ^ k) by (intros c i C; apply (LD c C)).
  assert (WS : forall i, S N i = sumL (map (fun c => cf (K0 + c) * seen k (v c i)) (zseq N))).
  { intros i. unfold S. f_equal. apply map_ext_in. intros c C. apply In_zseq in C. unfold weight. destruct (Z.ltb_spec c N); [reflexivity | lia]. }
  pose proof (Z.div_mod (N + 1) 2 ltac:(lia)) as DM. pose proof (Z.mod_pos_bound (N + 1) 2 ltac:(lia)) as MB.
  set (cnt := Z.min 6 ((N + 1) / 2)) in *.
  assert (CL : 2 * cnt <= loadsOf N /\ 0 <= cnt) by (unfold cnt, loadsOf; destruct (Z.leb_spec 13 N); lia).
  destruct (forZ_inv (fun t q => q = accOf nb (fun i => wrapu32 (A i + S (2 * t) i)))
    (fun t a => obind (load (2 * t)) (fun x0 => obind (load (2 * t + 1)) (fun x1 => Ok (addTaps nb (pairTaps (weight g N K0 (2 * t)) (weight g N K0 (2 * t + 1))) x0 x1 a))))
    cnt (accOf nb (fun i => wrapu32 (A i))) ltac:(lia)) as (q & Fq & Q).
  - apply accExt. intros i. unfold S. rewrite zseq_nonpos by lia. unfold sumL. cbn [map fold_right]. f_equal. lia.
  - intros t q T ->. destruct (LD (2 * t) ltac:(lia)) as (E0 & _). destruct (LD (2 * t + 1) ltac:(lia)) as (E1 & _).
    rewrite E0, E1. cbn [obind]. eexists. split; [reflexivity|]. apply (two_taps N K0 t v A); [lia | exact VR | lia].
  - fold nb. rewrite Fq. cbn [obind]. rewrite Q. destruct (Z.leb_spec 13 N) as [G|G].
    + assert (N = 13) by lia. assert (CN : cnt = 6) by (unfold cnt; lia). rewrite CN. change (2 * 6) with 12.
      assert (L13 : loadsOf N = 13) by (unfold loadsOf; destruct (Z.leb_spec 13 N); lia).
      destruct (LD 12 ltac:(lia)) as (E0 & R0). rewrite E0. cbn [obind]. unfold nb. rewrite addTapsB by exact KB. f_equal. apply accExt. intros i.
      rewrite madd_comm, pairTaps_one. pose proof (seen_lane k (v 12 i) K (R0 i)) as (L1 & L2 & L3).
      assert (WR : -1023 <= weight g N K0 12 <= 1023) by (unfold weight; destruct (12 <? N); [apply cfRange | lia]).
      rewrite madd_inter by lia. rewrite L2, wrap_add. f_equal. rewrite <- WS. assert (S N i = S 12 i + weight g N K0 12 * seen k (v 12 i)) as ->; [|lia].
      unfold S. replace (zseq N) with (zseq (12 + 1)) by (f_equal; lia). apply (sumL_snoc (fun c => weight g N K0 c * seen k (v c i))). lia.
    + f_equal. apply accExt. intros i. do 2 f_equal. rewrite <- WS. assert (C : 2 * cnt = N \/ 2 * cnt = N + 1) by (unfold cnt; lia).
      destruct C as [->| ->]; [reflexivity|]. unfold S. rewrite sumL_snoc by lia. unfold weight at 2. destruct (Z.ltb_spec N N); lia.
Qed.

(** ** Accumulators in memory *)

Lemma loadLanes_ext : forall k0 n m m' o, b_size m = b_size m' -> 1 <= k0 -> 0 <= o -> (forall a, o <= a < o + Z.of_nat n * k0 -> b_data m a = b_data m' a) ->
  loadLanes k0 m o n = loadLanes k0 m' o n.
Proof.
  intros k0. induction n as [|n IH]; intros m m' o S K1 O D; [reflexivity|]. cbn [loadLanes].
  replace (Z.of_nat (Datatypes.S n) * k0) with (k0 + Z.of_nat n * k0) in D by lia. assert (0 <= Z.of_nat n * k0) by (apply Z.mul_nonneg_nonneg; lia).
  rewrite (IH m m' (o + k0)) by (try assumption; try lia; intros a A; apply D; lia).
  assert (L : loadS k0 m o = loadS k0 m' o); [|rewrite L; reflexivity].
  unfold loadS, inside. rewrite S. destruct (_ && _); [|reflexivity]. f_equal. apply leval_ext. intros j J. rewrite Z2Nat.id in J by lia. apply D. lia.
Qed.

Lemma loadLanes_stored : forall (l : list Z) m o, (forall v, In v l -> 0 <= v < 256 ^ 4) -> 0 <= o -> o + zlength l * 4 <= b_size m ->
  (forall t v, nthz l t = Some v -> forall j, 0 <= j < 4 -> b_data m (o + t * 4 + j) = byteOf v j) -> loadLanes 4 m o (length l) = Ok l.
Proof.
  intros l m o R O E D. destruct (loadLanes_spec 4 (length l) m o ltac:(lia) O ltac:(unfold zlength in E; lia)) as (l' & -> & L & V).
  f_equal. apply nthz_ext; [unfold zlength in *; lia|]. intros t T. rewrite V by (unfold zlength in *; lia).
  destruct (proj2 (nthz_Some_iff _ l t)) as (v & Ev); [unfold zlength in *; lia|]. rewrite Ev. f_equal.
  specialize (R v (nthz_In _ _ _ _ Ev)). apply (leval_stored 4 m (o + t * 4) v); [lia | exact R | exact (D t v Ev)].
Qed.

Lemma idx_len : length (loIdx nb) = (4 * nb)%nat /\ length (hiIdx nb) = (4 * nb)%nat.
Proof. unfold nb. destruct KB as [->|[->| ->]]; split; reflexivity. Qed.
Lemma nb_pos : 1 <= Z.of_nat nb.
Proof. unfold nb. destruct KB as [->|[->| ->]]; vm_compute; discriminate. Qed.

Lemma storeAcc_ok : forall t b A, 0 <= b -> (b + 1) * pels B * 4 <= b_size t ->
  exists t', storeAcc B t (b * pels B) (accOf nb (fun i => wrapu32 (A i))) = Ok t' /\ b_size t' = b_size t /\
    loadAcc B t' (b * pels B) = Ok (accOf nb (fun i => wrapu32 (A i))) /\
    (forall b', 0 <= b' -> b' <> b -> loadAcc B t' (b' * pels B) = loadAcc B t (b' * pels B)).
Proof.
  intros t b A B0 SZ. destruct idx_len as (LL & LH). pose proof nb_pos as NP. unfold storeAcc, loadAcc, pels in *. fold nb in SZ |- *. cbn [accOf fst snd].
  set (lo := map (fun i => wrapu32 (A i)) (loIdx nb)). set (hi := map (fun i => wrapu32 (A i)) (hiIdx nb)).
  assert (ZL : zlength lo = 4 * Z.of_nat nb /\ zlength hi = 4 * Z.of_nat nb) by (unfold lo, hi, zlength; rewrite !map_length; lia). destruct ZL as (ZL & ZH).
  set (n8 := 8 * Z.of_nat nb) in *. assert (N8 : n8 = 2 * (4 * Z.of_nat nb)) by (unfold n8; lia). set (n4 := 4 * Z.of_nat nb) in *. assert (N4 : 4 <= n4) by (unfold n4; lia).
  assert (NN : Z.of_nat (4 * nb) = n4) by (unfold n4; lia). assert (LN : length lo = (4 * nb)%nat /\ length hi = (4 * nb)%nat) by (unfold lo, hi; rewrite !map_length; auto). destruct LN as (LN & HN).
  clearbody n8. subst n8. assert (P0 : 0 <= b * (2 * n4)) by (apply Z.mul_nonneg_nonneg; lia).
  destruct (storeLanes_spec 4 lo t (b * (2 * n4) * 4) ltac:(lia) ltac:(lia)) as (t1 & E1 & S1 & D1 & U1); [rewrite ZL; lia|].
  destruct (storeLanes_spec 4 hi t1 ((b * (2 * n4) + n4) * 4) ltac:(lia) ltac:(lia)) as (t2 & E2 & S2 & D2 & U2); [rewrite ZH; lia|].
  rewrite ZL in U1. rewrite ZH in U2. rewrite E1. cbn [obind]. exists t2. split; [exact E2|]. split; [congruence|].
  assert (WR : forall f (l : list nat) v, In v (map (fun i => wrapu32 (f i)) l) -> 0 <= v < 256 ^ 4) by (intros f l v I; apply in_map_iff in I; destruct I as (i & <- & _); apply wrapu32_range).
  split.
  - assert (LO : loadLanes 4 t2 (b * (2 * n4) * 4) (4 * nb) = Ok lo).
    { rewrite <- LN. apply loadLanes_stored; [apply WR | lia | rewrite ZL, S2, S1; lia |]. intros u v E j J. pose proof (nthz_range _ _ _ _ E) as R. rewrite ZL in R. rewrite U2 by lia. apply D1; assumption. }
    assert (HI : loadLanes 4 t2 ((b * (2 * n4) + n4) * 4) (4 * nb) = Ok hi).
    { rewrite <- HN. apply loadLanes_stored; [apply WR | lia | rewrite ZH, S2, S1; lia |]. exact D2. }
    rewrite LO. cbn [obind]. rewrite HI. reflexivity.
  - intros b' B' NE. assert (SEP : b' * (2 * n4) + 2 * n4 <= b * (2 * n4) \/ b * (2 * n4) + 2 * n4 <= b' * (2 * n4)) by (assert (b' + 1 <= b \/ b + 1 <= b') as [Q|Q] by lia; [left | right]; nia).
    assert (0 <= b' * (2 * n4)) by (apply Z.mul_nonneg_nonneg; lia).
    rewrite (loadLanes_ext 4 (4 * nb) t2 t (b' * (2 * n4) * 4)) by (try congruence; try lia; intros a Ha; rewrite U2, U1 by lia; reflexivity).
    rewrite (loadLanes_ext 4 (4 * nb) t2 t ((b' * (2 * n4) + n4) * 4)) by (try congruence; try lia; intros a Ha; rewrite U2, U1 by lia; reflexivity). reflexivity.
Qed.

(** ** Passes *)

Definition accAt (t : pbuf) (b : Z) (A : nat -> Z) : Prop := loadAcc B t (b * pels B) = Ok (accOf nb (fun i => wrapu32 (A i))).

Lemma pels_pos : 8 <= pels B.
Proof. unfold pels. fold nb. pose proof nb_pos. lia. Qed.
Lemma blocks_nonneg : forall n, 0 <= n -> 0 <= blocksOf B n.
Proof. intros n N. unfold blocksOf. pose proof pels_pos. apply Z.div_pos; lia. Qed.

Lemma start_ok : forall (first : bool) t b (A : Z -> nat -> Z), (if first then forall i, A b i = 0 else accAt t b (A b)) ->
  (if first then Ok (zeroAcc nb) else loadAcc B t (b * pels B)) = Ok (accOf nb (fun i => wrapu32 (A b i))).
Proof.
  intros [|] t b A H; [|exact H]. unfold nb. rewrite zeroAccB by exact KB. f_equal. apply accExt. intros i. rewrite H. reflexivity.
Qed.

Lemma pass_mid : forall first n taps put (A A' : Z -> nat -> Z) m t, 0 <= n -> blocksOf B n * pels B * 4 <= b_size t ->
  (forall b, 0 <= b < blocksOf B n -> if first : bool then forall i, A b i = 0 else accAt t b (A b)) ->
  (forall b, 0 <= b < blocksOf B n -> taps (b * pels B) (accOf nb (fun i => wrapu32 (A b i))) = Ok (accOf nb (fun i => wrapu32 (A' b i)))) ->
  exists t', pass B first false n taps put (m, t) = Ok (m, t') /\ b_size t' = b_size t /\ forall b, 0 <= b < blocksOf B n -> accAt t' b (A' b).
Proof.
  intros first n taps put A A' m t N SZ ST TP. pose proof pels_pos as PP. unfold pass.
  destruct (forZ_inv (fun b st => fst st = m /\ b_size (snd st) = b_size t /\ (forall c, 0 <= c < b -> accAt (snd st) c (A' c)) /\
      (forall c, b <= c < blocksOf B n -> loadAcc B (snd st) (c * pels B) = loadAcc B t (c * pels B)))
    (fun b st => let j := b * pels B in
       obind (if first then Ok (zeroAcc (be_nb B)) else loadAcc B (snd st) j) (fun a => obind (taps j a) (fun a =>
       if false then obind (put j a (fst st)) (fun m => Ok (m, snd st)) else obind (storeAcc B (snd st) j a) (fun t => Ok (fst st, t)))))
    (blocksOf B n) (m, t) (blocks_nonneg n N)) as (st & F & Q1 & Q2 & Q3 & _).
  - cbn [fst snd]. split; [reflexivity|]. split; [reflexivity|]. split; [intros; lia | reflexivity].
  - intros b (m1, t1) Bb (M1 & S1 & D1 & U1). cbn [fst snd] in *. subst m1. cbv zeta. fold nb.
    rewrite (start_ok first t1 b A).
    2:{ specialize (ST b Bb). destruct first; [exact ST|]. unfold accAt. rewrite U1 by lia. exact ST. }
    cbn [obind]. rewrite TP by exact Bb. cbn [obind].
    destruct (storeAcc_ok t1 b (A' b) ltac:(lia)) as (t2 & E2 & S2 & L2 & U2).
    { rewrite S1. etransitivity; [|exact SZ]. apply Z.mul_le_mono_nonneg_r; [lia|]. apply Z.mul_le_mono_nonneg_r; lia. }
    rewrite E2. cbn [obind]. eexists. split; [reflexivity|]. cbn [fst snd]. split; [reflexivity|]. split; [congruence|]. split.
    + intros c C. destruct (Z.eq_dec c b) as [->|NE]; [exact L2|]. unfold accAt. rewrite U2 by lia. apply D1. lia.
    + intros c C. rewrite U2 by lia. apply U1. lia.
  - destruct st as (m1, t1). cbn [fst snd] in *. subst m1. exists t1. split; [exact F|]. split; assumption.
Qed.

Lemma pass_last : forall first n taps put (A A' : Z -> nat -> Z) (R : Z -> pbuf -> Prop) m t, 0 <= n ->
  (forall b, 0 <= b < blocksOf B n -> if first : bool then forall i, A b i = 0 else accAt t b (A b)) ->
  (forall b, 0 <= b < blocksOf B n -> taps (b * pels B) (accOf nb (fun i => wrapu32 (A b i))) = Ok (accOf nb (fun i => wrapu32 (A' b i)))) ->
  (forall b m1, 0 <= b < blocksOf B n -> R b m1 -> exists m2, put (b * pels B) (accOf nb (fun i => wrapu32 (A' b i))) m1 = Ok m2 /\ R (b + 1) m2) ->
  R 0 m -> exists m', pass B first true n taps put (m, t) = Ok (m', t) /\ R (blocksOf B n) m'.
Proof.
  intros first n taps put A A' R m t N ST TP PUT R0. unfold pass.
  destruct (forZ_inv (fun b st => snd st = t /\ R b (fst st))
    (fun b st => let j := b * pels B in
       obind (if first then Ok (zeroAcc (be_nb B)) else loadAcc B (snd st) j) (fun a => obind (taps j a) (fun a =>
       if true then obind (put j a (fst st)) (fun m => Ok (m, snd st)) else obind (storeAcc B (snd st) j a) (fun t => Ok (fst st, t)))))
    (blocksOf B n) (m, t) (blocks_nonneg n N)) as (st & F & Q1 & Q2).
  - split; [reflexivity | exact R0].
  - intros b (m1, t1) Bb (T1 & R1). cbn [fst snd] in *. subst t1. cbv zeta. fold nb. rewrite (start_ok first t b A (ST b Bb)). cbn [obind]. rewrite TP by exact Bb. cbn [obind].
    destruct (PUT b m1 Bb R1) as (m2 & E2 & R2). rewrite E2. cbn [obind]. eexists. split; [reflexivity|]. split; [reflexivity | exact R2].
  - destruct st as (m1, t1). cbn [fst snd] in *. subst t1. exists m1. split; assumption.
Qed.

(** The passes [l] take the taps from [K0] up to [N]. *)
Fixpoint covers (l : list (Z * Z)) (K0 N : Z) : Prop :=
  match l with
  | [] => False
  | [q] => snd q = K0 /\ 1 <= fst q <= 13 /\ K0 + fst q = N
  | q :: r => snd q = K0 /\ 1 <= fst q <= 13 /\ covers r (K0 + fst q) N
  end.
Lemma splitH_covers : forall N, 1 <= N <= 25 -> covers (splitH N) 0 N.
Proof. intros N R. unfold splitH. destruct (Z.ltb_spec 13 N); cbn [covers fst snd]; repeat split; lia. Qed.
Lemma splitV_covers : forall N, 1 <= N <= 25 -> N <> 10 -> N <> 20 -> covers (splitV N) 0 N.
Proof. intros N R T1 T2. unfold splitV. destruct (Z.ltb_spec 19 N); [|destruct (Z.ltb_spec 9 N)]; cbn [covers fst snd]; repeat split; lia. Qed.

(** The sum of the first [u] taps; [v c b i] is the sample of tap [c] in lane [i] of block [b]. *)
Definition upTo (v : Z -> Z -> nat -> Z) (u b : Z) (i : nat) : Z := sumL (map (fun c => cf c * seen k (v c b i)) (zseq u)).

Lemma upTo_plus : forall v u n b i, 0 <= u -> 0 <= n -> upTo v (u + n) b i = upTo v u b i + sumL (map (fun c => cf (u + c) * seen k (v (u + c) b i)) (zseq n)).
Proof.
  intros v u n b i U N. revert n N. apply natlike_ind.
  - rewrite Z.add_0_r. change (zseq 0) with (@nil Z). change (sumL (map (fun c => cf (u + c) * seen k (v (u + c) b i)) [])) with 0. lia.
  - intros n N IH. unfold Z.succ. rewrite sumL_snoc by lia. rewrite Z.add_assoc. unfold upTo in *. rewrite sumL_snoc by lia. lia.
Qed.

Lemma passes_ok : forall n load put v (R : Z -> pbuf -> Prop) N m, 0 <= n ->
  (forall b m1, 0 <= b < blocksOf B n -> R b m1 -> exists m2, put (b * pels B) (accOf nb (fun i => wrapu32 (upTo v N b i))) m1 = Ok m2 /\ R (b + 1) m2) -> R 0 m ->
  forall l first K0 t, 0 <= K0 -> covers l K0 N -> (1 < zlength l -> blocksOf B n * pels B * 4 <= b_size t) ->
  (forall q, In q l -> forall b, 0 <= b < blocksOf B n -> loaded (fst q) (load q (b * pels B)) (fun c => v (snd q + c) b)) ->
  (if first : bool then K0 = 0 else forall b, 0 <= b < blocksOf B n -> accAt t b (upTo v K0 b)) ->
  exists m' t', passes B first l n (fun q j => tapsPass B g (fst q) (snd q) (load q j)) put (m, t) = Ok (m', t') /\ b_size t' = b_size t /\ R (blocksOf B n) m'.
Proof.
  intros n load put v R N m N0 PUT R0. induction l as [|q l IH]; intros first K0 t K00 CV SZ LD ST; [destruct CV|].
  assert (ST' : forall b, 0 <= b < blocksOf B n -> if first then forall i, upTo v K0 b i = 0 else accAt t b (upTo v K0 b)).
  { intros b Bb. destruct first; [|apply ST; exact Bb]. intros i. rewrite ST. reflexivity. }
  assert (Q : snd q = K0 /\ 1 <= fst q <= 13) by (destruct l; cbn [covers] in CV; tauto). destruct Q as (QK & QN).
  assert (TP : forall b, 0 <= b < blocksOf B n ->
    tapsPass B g (fst q) (snd q) (load q (b * pels B)) (accOf nb (fun i => wrapu32 (upTo v K0 b i))) = Ok (accOf nb (fun i => wrapu32 (upTo v (K0 + fst q) b i)))).
  { intros b Bb. rewrite (tapsPass_spec (fst q) (snd q) (load q (b * pels B)) (fun c => v (snd q + c) b) (upTo v K0 b) QN (LD q (or_introl eq_refl) b Bb)).
    f_equal. apply accExt. intros i. rewrite upTo_plus by lia. rewrite QK. reflexivity. }
  destruct l as [|q' l].
  - cbn [covers] in CV. destruct CV as (_ & _ & CN). cbn [passes].
    destruct (pass_last first n (fun j => tapsPass B g (fst q) (snd q) (load q j)) put (upTo v K0) (upTo v (K0 + fst q)) R m t N0 ST' TP) as (m' & E & RE).
    + rewrite CN. exact PUT.
    + exact R0.
    + exists m', t. split; [exact E|]. split; [reflexivity | exact RE].
  - assert (CV' : covers (q' :: l) (K0 + fst q) N) by (cbn [covers] in CV; tauto).
    change (passes B first (q :: q' :: l) n (fun q j => tapsPass B g (fst q) (snd q) (load q j)) put (m, t)) with
      (obind (pass B first false n (fun j => tapsPass B g (fst q) (snd q) (load q j)) put (m, t)) (passes B false (q' :: l) n (fun q j => tapsPass B g (fst q) (snd q) (load q j)) put)).
    assert (SZ' : blocksOf B n * pels B * 4 <= b_size t) by (apply SZ; rewrite !zlength_cons; pose proof (zlength_nonneg _ l); lia).
    destruct (pass_mid first n (fun j => tapsPass B g (fst q) (snd q) (load q j)) put (upTo v K0) (upTo v (K0 + fst q)) m t N0 SZ' ST' TP) as (t1 & E1 & S1 & A1).
    rewrite E1. cbn [obind].
    destruct (IH false (K0 + fst q) t1 ltac:(lia) CV') as (m' & t' & E & S2 & RE).
    + intros _. rewrite S1. exact SZ'.
    + intros q0 I. apply LD. right. exact I.
    + exact A1.
    + exists m', t'. split; [exact E|]. split; [congruence | exact RE].
Qed.
End Lanes.
