(** The driver of the vector kernels: whole planes, a register at a time. *)
From Coq Require Import ZArith List Lia Bool.
From Verif Require Import Common ImageSpec PlaneMem PixelSpec Pixel PixelLemmas Lut LutLemmas Soft GenericSpec Generic GenericLemmas GenericOps GenericPlanes Simd
  GenericSimd GenericSimdLanes GenericSimdEdges.
Import ListNotations.
Open Scope Z_scope.

Lemma vend_spec : forall q x, 0 <= q <= 32 -> 0 <= x < 2 ^ 32 ->
  Z.land x (wrapu32 (Z.lnot (2 ^ q - 1))) = 2 ^ q * (x / 2 ^ q).
Proof.
  intros q x Q X. unfold wrapu32. change 4294967296 with (2 ^ 32). rewrite <- Z.land_ones by lia.
  rewrite (Z.land_comm (Z.lnot _)), Z.land_assoc, Z.land_ones, Z.mod_small by lia.
  replace (2 ^ q - 1) with (Z.ones q) by (rewrite Z.ones_equiv; lia). rewrite <- Z.ldiff_land, Z.ldiff_ones_r by lia.
  rewrite Z.shiftl_mul_pow2, Z.shiftr_div_pow2 by lia. ring.
Qed.

Lemma lanes_pow : forall B k, known B -> smallk k -> exists q, 3 <= q <= 6 /\ lanes B k = 2 ^ q.
Proof.
  intros B k [->|[->| ->]] [->| ->]; [exists 4|exists 3|exists 5|exists 4|exists 6|exists 5]; (split; [lia | reflexivity]).
Qed.

Lemma nth_map_seq : forall (f : nat -> Z) m i, (i < m)%nat -> nth i (map f (seq 0 m)) 0 = f i.
Proof.
  intros f m i I. rewrite (nth_indep (map f (seq 0 m)) 0 (f 0%nat)) by (rewrite map_length, seq_length; exact I).
  rewrite map_nth, seq_nth by exact I. reflexivity.
Qed.

Section Driver.
Variables (B : backend) (k : Z) (src : plane) (w h : Z).
Hypothesis KB : known B.
Hypothesis K : smallk k.
Hypothesis W : 1 <= w < 2 ^ 31.
Hypothesis H : 1 <= h < 2 ^ 31.
Hypothesis WS : wfPlane k src w h.
Let n := lanes B k.
Hypothesis AS : p_stride src mod (n * k) = 0.
Let raw (r x : Z) : Z := leval (Z.to_nat k) (b_data (p_buf src)) (r * p_stride src + x * k).
Let a := imageOf k src w h.

Lemma n_pos : 8 <= n <= 64.
Proof. unfold n. destruct KB as [->|[->| ->]], K as [->| ->]; cbn; lia. Qed.
Lemma k_pos : 1 <= k <= 2.
Proof. destruct K; lia. Qed.
Lemma n_nat : Z.of_nat (nlanes B k) = n.
Proof. unfold nlanes. fold n. pose proof n_pos. lia. Qed.

(** A register that starts at a multiple of its width lies in the row. *)
Lemma fits : forall str t, w * k <= str -> str mod (n * k) = 0 -> 0 <= t -> t * n < w -> (t * n + n) * k <= str.
Proof.
  intros str t S A T TW. pose proof n_pos. pose proof k_pos. apply Z.mod_divide in A; [|nia]. destruct A as (c & ->).
  assert (0 < n * k) by nia. assert (TC : t * n * k < w * k) by (apply Z.mul_lt_mono_pos_r; lia).
  assert (t < c) by (apply (Z.mul_lt_mono_pos_r (n * k)); lia). nia.
Qed.

Lemma vload_spec : forall al r x, 0 <= r < h -> 0 <= x -> (x + n) * k <= p_stride src -> (al = true -> x mod n = 0) ->
  exists l, vload B al k src r x = Ok l /\ length l = nlanes B k /\ forall i, (i < nlanes B k)%nat -> nth i l 0 = raw r (x + Z.of_nat i).
Proof.
  intros al r x R X F AL. pose proof n_pos as NP. pose proof k_pos as KP. pose proof n_nat as NN. destruct WS as (_ & _ & S & BS).
  unfold vload. fold n.
  assert (Q : al && negb ((r * p_stride src + x * k) mod (n * k) =? 0) = false).
  { destruct al; [|reflexivity]. specialize (AL eq_refl). apply Z.mod_divide in AS; [|nia]. apply Z.mod_divide in AL; [|lia].
    destruct AS as (c & E), AL as (d & E'). rewrite E, E'.
    replace (r * (c * (n * k)) + d * n * k) with ((r * c + d) * (n * k)) by ring. rewrite Z.mod_mul by nia. reflexivity. }
  rewrite Q. destruct (loadLanes_spec k (nlanes B k) (p_buf src) (r * p_stride src + x * k)) as (l & E & L & V).
  - lia.
  - nia.
  - rewrite NN, BS. nia.
  - exists l. split; [exact E|]. unfold zlength in L. split; [lia|]. intros i I. specialize (V (Z.of_nat i) ltac:(lia)).
    unfold nthz in V. destruct (Z.ltb_spec (Z.of_nat i) 0); [lia|]. rewrite Nat2Z.id in V. apply nth_error_nth with (d := 0) in V. rewrite V.
    unfold raw. f_equal. ring.
Qed.

Definition groupOk (x0 r : Z) (vs : list vec) : Prop := exists l c e, vs = [l; c; e] /\ length l = nlanes B k /\ length c = nlanes B k /\ length e = nlanes B k /\
  forall i, (i < nlanes B k)%nat -> x0 + Z.of_nat i < w ->
    nth i l 0 = raw r (edge w (x0 + Z.of_nat i + -1)) /\ nth i c 0 = raw r (edge w (x0 + Z.of_nat i + 0)) /\ nth i e 0 = raw r (edge w (x0 + Z.of_nat i + 1)).

Lemma sample_raw : forall x r, 0 <= x < w -> 0 <= r < h -> sampleAt k src x r = Ok (raw r x).
Proof. intros x r X R. rewrite (sampleAt_spec k src w h) by (first [exact WS | apply k_pos | assumption]). reflexivity. Qed.

Lemma first_ok : forall r, 0 <= r < h -> exists vs, firstGroup B k src w r = Ok vs /\ groupOk 0 r vs.
Proof.
  intros r R. pose proof n_pos as NP. pose proof n_nat as NN. pose proof k_pos as KP. destruct WS as (_ & _ & S & BS).
  destruct (vload_spec true r 0 R ltac:(lia)) as (c & EC & LC & VC).
  { apply (fits _ 0); [exact S | exact AS | lia | lia]. } { reflexivity. }
  unfold firstGroup. rewrite EC. cbn [obind]. rewrite sample_raw by lia. cbn [obind]. rewrite wrapu32_id by lia. fold n.
  destruct (shl_spec B k c (raw r 0) KB K LC) as (LL & VL).
  assert (RR : exists e, (if n <? w then vload B false k src r 1 else obind (sampleAt k src (w - 1) r) (fun e => Ok (shrInsert B k c e (w - 1)))) = Ok e /\
     length e = nlanes B k /\ forall i, (i < nlanes B k)%nat -> Z.of_nat i < w -> nth i e 0 = raw r (edge w (Z.of_nat i + 1))).
  { destruct (Z.ltb_spec n w).
    - destruct (vload_spec false r 1 R ltac:(lia)) as (e & EE & LE & VE); [nia | discriminate |].
      exists e. split; [exact EE|]. split; [exact LE|]. intros i I IW. rewrite VE by exact I. f_equal. unfold edge. lia.
    - rewrite sample_raw by lia. cbn [obind]. destruct (shr_spec B k c (raw r (w - 1)) (w - 1) KB K LC ltac:(fold n; lia)) as (LE & VE).
      eexists. split; [reflexivity|]. split; [exact LE|]. intros i I IW. rewrite VE by exact I. destruct (Z.eqb_spec (Z.of_nat i) (w - 1)).
      + f_equal. unfold edge. lia.
      + rewrite VC by lia. f_equal. unfold edge. lia. }
  destruct RR as (e & EE & LE & VE). rewrite EE. cbn [obind]. eexists. split; [reflexivity|].
  exists (shlInsert B k c (raw r 0)), c, e. split; [reflexivity|]. split; [exact LL|]. split; [exact LC|]. split; [exact LE|].
  intros i I IW. split; [|split].
  - rewrite VL by exact I. destruct i as [|j]; [f_equal; unfold edge; lia|]. rewrite VC by lia. f_equal. unfold edge. lia.
  - rewrite VC by exact I. f_equal. unfold edge. lia.
  - rewrite VE by (try exact I; lia). f_equal. 
Qed.

Lemma inner_ok : forall t r, 0 <= r < h -> 1 <= t -> t * n + n < w -> exists vs, innerGroup B k src (t * n) r = Ok vs /\ groupOk (t * n) r vs.
Proof.
  intros t r R T TW. pose proof n_pos as NP. pose proof n_nat as NN. pose proof k_pos as KP. destruct WS as (_ & _ & S & BS).
  assert (n <= t * n) by nia.
  destruct (vload_spec false r (t * n - 1) R ltac:(lia)) as (l & EL & LL & VL); [nia | discriminate |].
  destruct (vload_spec true r (t * n) R ltac:(lia)) as (c & EC & LC & VC); [nia | intros _; apply Z.mod_mul; lia |].
  destruct (vload_spec false r (t * n + 1) R ltac:(lia)) as (e & EE & LE & VE); [nia | discriminate |].
  unfold innerGroup. rewrite EL. cbn [obind]. rewrite EC. cbn [obind]. rewrite EE. cbn [obind]. eexists. split; [reflexivity|].
  exists l, c, e. split; [reflexivity|]. split; [exact LL|]. split; [exact LC|]. split; [exact LE|].
  intros i I IW. split; [|split].
  - rewrite VL by exact I. f_equal. unfold edge. lia.
  - rewrite VC by exact I. f_equal. unfold edge. lia.
  - rewrite VE by exact I. f_equal. unfold edge. lia.
Qed.

Lemma last_ok : forall t r, 0 <= r < h -> 1 <= t -> t * n < w <= t * n + n -> exists vs, lastGroup B k src w (t * n) r = Ok vs /\ groupOk (t * n) r vs.
Proof.
  intros t r R T TW. pose proof n_pos as NP. pose proof n_nat as NN. pose proof k_pos as KP. destruct WS as (_ & _ & S & BS).
  assert (n <= t * n) by nia. pose proof (fits _ t S AS ltac:(lia) ltac:(lia)) as F.
  destruct (vload_spec false r (t * n - 1) R ltac:(lia)) as (l & EL & LL & VL); [nia | discriminate |].
  destruct (vload_spec true r (t * n) R ltac:(lia)) as (c & EC & LC & VC); [exact F | intros _; apply Z.mod_mul; lia |].
  unfold lastGroup. rewrite EL. cbn [obind]. rewrite EC. cbn [obind]. rewrite !wrapu32_id by lia. rewrite sample_raw by lia. cbn [obind].
  destruct (shr_spec B k c (raw r (w - 1)) (w - t * n - 1) KB K LC ltac:(fold n; lia)) as (LE & VE).
  eexists. split; [reflexivity|].
  exists l, c, (shrInsert B k c (raw r (w - 1)) (w - t * n - 1)). split; [reflexivity|]. split; [exact LL|]. split; [exact LC|]. split; [exact LE|].
  intros i I IW. split; [|split].
  - rewrite VL by exact I. f_equal. unfold edge. lia.
  - rewrite VC by exact I. f_equal. unfold edge. lia.
  - rewrite VE by exact I. destruct (Z.eqb_spec (Z.of_nat i) (w - t * n - 1)).
    + f_equal. unfold edge. lia.
    + rewrite VC by lia. f_equal. unfold edge. lia.
Qed.

Variables (op : list vec -> vec) (L : list Z -> Z) (dst : plane).
Hypothesis OP : laneWise (nlanes B k) op L.
Hypothesis WD : wfPlane k dst w h.
Hypothesis AD : p_stride dst mod (n * k) = 0.
Hypothesis RL : forall x y, 0 <= x < w -> 0 <= y < h -> 0 <= L (around a x y) < 256 ^ k.
Let str := p_stride dst.
Let g (x y : Z) : Z := L (around a x y).

Lemma rows_ok : forall f x0 y, 0 <= y < h -> (forall r, 0 <= r < h -> exists vs, f r = Ok vs /\ groupOk x0 r vs) ->
  exists vs, ofRows f (if y =? 0 then 0 else y - 1) y (if y =? wrapu32 (h - 1) then wrapu32 (h - 1) else y + 1) = Ok vs /\
    length (op vs) = nlanes B k /\
    forall i, (i < nlanes B k)%nat -> 0 <= x0 -> x0 + Z.of_nat i < w -> nth i (op vs) 0 = g (x0 + Z.of_nat i) y.
Proof.
  intros f x0 y Y F.
  set (R0 := if y =? 0 then 0 else y - 1).
  set (R2 := if y =? wrapu32 (h - 1) then wrapu32 (h - 1) else y + 1).
  assert (E0 : R0 = edge h (y + -1)) by (subst R0; unfold edge; destruct (Z.eqb_spec y 0); lia).
  assert (E2 : R2 = edge h (y + 1)) by (subst R2; unfold edge; rewrite wrapu32_id by lia; destruct (Z.eqb_spec y (h - 1)); lia).
  assert (E1 : y = edge h (y + 0)) by (unfold edge; lia).
  destruct (F R0) as (va & FA & la & ca & ea & -> & A1 & A2 & A3 & A4); [rewrite E0; apply edge_in; lia|].
  destruct (F y Y) as (vb & FB & lb & cb & eb & -> & B1 & B2 & B3 & B4).
  destruct (F R2) as (vc & FC & lc & cc & ec & -> & C1 & C2 & C3 & C4); [rewrite E2; apply edge_in; lia|].
  unfold ofRows. rewrite FA. cbn [obind]. rewrite FB. cbn [obind]. rewrite FC. cbn [obind app]. eexists. split; [reflexivity|].
  assert (FL : Forall (fun v : vec => length v = nlanes B k) [la; ca; ea; lb; cb; eb; lc; cc; ec]) by (repeat (apply Forall_cons; [assumption|]); apply Forall_nil).
  pose proof (OP [la; ca; ea; lb; cb; eb; lc; cc; ec] eq_refl FL) as OE.
  split; [rewrite OE, map_length, seq_length; reflexivity|]. intros i I X0 IW.
  rewrite OE, nth_map_seq by exact I. cbn [map]. unfold g. f_equal.
  destruct (A4 i I IW) as (-> & -> & ->), (B4 i I IW) as (-> & -> & ->), (C4 i I IW) as (-> & -> & ->).
  unfold around, offsets. cbn [map fst snd]. change (i_w a) with w. change (i_h a) with h. rewrite <- E0, <- E2, <- E1. reflexivity.
Qed.

Lemma group_store : forall f t y m, 0 <= y < h -> 0 <= t -> t * n < w -> (forall r, 0 <= r < h -> exists vs, f r = Ok vs /\ groupOk (t * n) r vs) ->
  b_size m = b_size (p_buf dst) -> painted k w h g str y (t * n) m ->
  exists m', obind (ofRows f (if y =? 0 then 0 else y - 1) y (if y =? wrapu32 (h - 1) then wrapu32 (h - 1) else y + 1))
      (fun vs => vstore B k str m y (t * n) (op vs)) = Ok m' /\ b_size m' = b_size (p_buf dst) /\ painted k w h g str y (t * n + n) m'.
Proof.
  intros f t y m Y T TW F M1 M2. pose proof n_pos as NP. pose proof n_nat as NN. pose proof k_pos as KP. destruct WD as (_ & _ & S & BS).
  destruct (rows_ok f (t * n) y Y F) as (vs & E & LV & V). rewrite E. cbn [obind].
  pose proof (fits str t S AD T TW) as FT. fold str in S, BS.
  unfold vstore. fold n.
  assert (Q : (y * str + t * n * k) mod (n * k) = 0).
  { unfold str. apply Z.mod_divide in AD; [|nia]. destruct AD as (c & ->).
    replace (y * (c * (n * k)) + t * n * k) with ((y * c + t) * (n * k)) by ring. apply Z.mod_mul. nia. }
  rewrite Q. cbn [Z.eqb negb].
  assert (ZL : zlength (op vs) = n) by (unfold zlength; lia).
  assert (0 <= t * n) by nia.
  destruct (storeLanes_spec k (op vs) m (y * str + t * n * k)) as (m' & E' & S' & A' & B').
  - lia.
  - nia.
  - rewrite ZL, M1, BS. nia.
  - exists m'. split; [exact E'|]. split; [congruence|].
    apply (painted_step k w h g (proj1 KP) str y (t * n) n m m'); [exact Y | nia | lia | exact S | exact M2 | |].
    + intros i I IW j J. replace (y * str + (t * n + i) * k + j) with (y * str + t * n * k + i * k + j) by ring.
      apply A'; [|exact J]. specialize (V (Z.to_nat i) ltac:(lia) ltac:(nia)). rewrite Z2Nat.id in V by lia. rewrite <- V by lia.
      unfold nthz. destruct (Z.ltb_spec i 0); [lia|]. apply nth_error_nth'. lia.
    + intros u U. apply B'. lia.
Qed.

Lemma row_ok : forall y m, 0 <= y < h -> b_size m = b_size (p_buf dst) -> painted k w h g str y 0 m ->
  exists m', rowV B k op src w h y str m = Ok m' /\ b_size m' = b_size (p_buf dst) /\ painted k w h g str (y + 1) 0 m'.
Proof.
  intros y m Y M1 M2. pose proof n_pos as NP. pose proof k_pos as KP.
  destruct (lanes_pow B k KB K) as (q & Q & NQ). fold n in NQ.
  assert (VE : Z.land (wrapu32 (w - 1)) (wrapu32 (Z.lnot (n - 1))) = n * ((w - 1) / n)).
  { rewrite (wrapu32_id (w - 1)) by lia. rewrite NQ. apply vend_spec; lia. }
  set (c := (w - 1) / n) in *.
  assert (CB : n * c <= w - 1 < n * c + n).
  { pose proof (Z.div_mod (w - 1) n ltac:(lia)). pose proof (Z.mod_pos_bound (w - 1) n ltac:(lia)). fold c in H0. lia. }
  assert (C0 : 0 <= c) by (apply Z.div_pos; lia).
  unfold rowV. cbv zeta. fold n. rewrite VE. replace (n * c / n) with c by (rewrite Z.mul_comm, Z.div_mul; lia).
  destruct (group_store (firstGroup B k src w) 0 y m Y ltac:(lia) ltac:(lia) first_ok M1 M2) as (m1 & E1 & S1 & P1).
  change (0 * n) with 0 in *. rewrite E1. cbn [obind]. cbn [Z.add] in P1.
  assert (END : forall m' x, w <= x -> painted k w h g str y x m' -> painted k w h g str (y + 1) 0 m').
  { intros m' x X P u v U V C j J. apply P; auto. lia. }
  destruct (Z.eq_dec c 0) as [->|NC].
  - replace (forFrom 1 0 _ m1) with (Ok m1) by reflexivity. cbn [obind]. rewrite Z.mul_0_r.
    destruct (Z.leb_spec n 0); [lia|]. exists m1. split; [reflexivity|]. split; [exact S1|]. apply (END m1 n); [lia | exact P1].
  - destruct (forFrom_inv (fun t m' => b_size m' = b_size (p_buf dst) /\ painted k w h g str y (t * n) m')
      (fun t m' => obind (ofRows (innerGroup B k src (t * n)) (if y =? 0 then 0 else y - 1) y (if y =? wrapu32 (h - 1) then wrapu32 (h - 1) else y + 1))
          (fun vs => vstore B k str m' y (t * n) (op vs))) 1 c m1 ltac:(lia)) as (m2 & E2 & S2 & P2).
    + split; [exact S1|]. rewrite Z.mul_1_l. exact P1.
    + intros t m' T (S' & P'). assert (t * n + n <= n * c) by nia.
      destruct (group_store (innerGroup B k src (t * n)) t y m' Y ltac:(lia) ltac:(lia)) as (m3 & E3 & S3 & P3); [|exact S' | exact P' |].
      * intros r R. apply inner_ok; [exact R | lia | lia].
      * exists m3. split; [exact E3|]. split; [exact S3|]. replace ((t + 1) * n) with (t * n + n) by ring. exact P3.
    + rewrite E2. cbn [obind]. destruct (Z.leb_spec n (n * c)); [|nia].
      rewrite (Z.mul_comm n c) in *.
      destruct (group_store (lastGroup B k src w (c * n)) c y m2 Y ltac:(lia) ltac:(lia)) as (m3 & E3 & S3 & P3); [|exact S2 | exact P2 |].
      * intros r R. apply last_ok; [exact R | lia | lia].
      * exists m3. split; [exact E3|]. split; [exact S3|]. apply (END m3 (c * n + n)); [lia | exact P3].
Qed.

Lemma filterV_spec : exists m, filterV B k op src w h dst = Ok m /\ b_size m = b_size (p_buf dst) /\
  same (imageOf k (mkPl (p_stride dst) m) w h) (local L (imageOf k src w h)).
Proof.
  unfold filterV. fold str.
  destruct (forZ_inv (fun y m => b_size m = b_size (p_buf dst) /\ painted k w h g str y 0 m)
    (fun i m => rowV B k op src w h i str m) h (p_buf dst) ltac:(lia)) as (m & E & M1 & M2).
  - split; [reflexivity|]. intros u v U V C. lia.
  - intros y m Y (M1 & M2). destruct (row_ok y m Y M1 M2) as (m' & E & S & P). exists m'. auto.
  - exists m. split; [exact E|]. split; [exact M1|].
    apply (painted_image k w h g (proj1 k_pos) str 0 m); [lia | exact RL | exact M2].
Qed.
End Driver.
