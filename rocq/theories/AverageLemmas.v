(** AverageFrames: accumulators, scene changes, frame numbers. *)
From Coq Require Import ZArith List Lia Bool SpecFloat.
From Verif Require Import Common FormatSpec Format Frame PlaneMem Spatial Pixel Soft Generic LutLemmas AverageSpec Average AverageNear.
Import ListNotations.
Open Scope Z_scope.

Definition absSum (ws : list Z) : Z := fold_right (fun w a => Z.abs w + a) 0 ws.
Definition total (ws : list Z) : Z := fold_right Z.add 0 ws.
Lemma absSum_nonneg : forall ws, 0 <= absSum ws.
Proof. induction ws; cbn [absSum fold_right]; [lia|]. fold (absSum ws). lia. Qed.
Lemma absSum_cons : forall w ws, absSum (w :: ws) = Z.abs w + absSum ws.
Proof. reflexivity. Qed.
Lemma total_cons : forall w ws, total (w :: ws) = w + total ws.
Proof. reflexivity. Qed.
Lemma total_abs : forall ws, Z.abs (total ws) <= absSum ws.
Proof. induction ws as [|w ws IH]; [cbn; lia|]. rewrite total_cons, absSum_cons. lia. Qed.
Lemma absSum_bound : forall c ws, 0 <= c -> Forall (fun w => Z.abs w <= c) ws -> absSum ws <= c * zlength ws.
Proof.
  intros c ws C. induction 1 as [|w ws W _ IH]; [unfold zlength; cbn; lia|]. rewrite absSum_cons. unfold zlength in *. cbn [length]. rewrite Nat2Z.inj_succ. nia.
Qed.

Lemma chk32_ok : forall v, Z.abs v <= INT_MAX -> chk32 v = Ok v.
Proof. intros v V. unfold chk32. replace (in_intb v) with true; [reflexivity|]. symmetry. apply in_intb_spec. unfold in_int, INT_MIN, INT_MAX in *. lia. Qed.

(** ** The accumulator *)
Lemma accum_spec : forall k bias o B ws srcs vs acc, 0 <= bias -> Forall2 (fun s v => loadS k s o = Ok v) srcs vs -> length ws = length vs ->
  Forall (fun v => Z.abs (v - bias) <= B) vs -> 1 <= B -> Z.abs acc + B * absSum ws <= INT_MAX -> B <= INT_MAX ->
  accum k bias ws srcs o acc = Ok (acc + weighted bias ws vs) /\ Z.abs (weighted bias ws vs) <= B * absSum ws.
Proof.
  intros k bias o B ws. induction ws as [|w ws IH]; intros srcs vs acc B0 F L V B1 A BI.
  - destruct vs; [|discriminate]. cbn [accum weighted]. rewrite Z.add_0_r. split; [reflexivity | cbn; lia].
  - destruct vs as [|v vs]; [discriminate|]. inversion F as [|s v' ss vs' LD F']. subst. inversion V as [|v' vs' V1 V2]. subst.
    rewrite absSum_cons in *. pose proof (absSum_nonneg ws) as AN. cbn [accum weighted]. rewrite LD. cbn [obind].
    assert (M : Z.abs ((v - bias) * w) <= B * Z.abs w) by (rewrite Z.abs_mul; nia).
    rewrite chk32_ok by lia. cbn [obind]. rewrite chk32_ok by nia. cbn [obind]. rewrite chk32_ok by nia. cbn [obind].
    destruct (IH ss vs (acc + (v - bias) * w) B0 F') as (E & BD); auto; [nia|]. rewrite E. split; [f_equal; ring|].
    replace (w * (v - bias)) with ((v - bias) * w) by ring. nia.
Qed.

Lemma weighted_const : forall bias v ws vs, length ws = length vs -> Forall (fun x => x = v) vs -> weighted bias ws vs = (v - bias) * total ws.
Proof.
  intros bias v ws. induction ws as [|w ws IH]; intros [|x vs] L F; try discriminate; [cbn; lia|].
  inversion F; subst. cbn [weighted]. rewrite IH by (auto; injection L; auto). rewrite total_cons. ring.
Qed.

(** ** Scene changes *)
Lemma scanDown_spec : forall first n, let f := scanDown first n in 0 <= f <= Z.of_nat n /\ (f = 0 \/ first f = true) /\ forall j, f < j <= Z.of_nat n -> first j = false.
Proof.
  intros first. induction n as [|n IH]; cbn [scanDown]; cbv zeta; [repeat split; [lia | lia | auto | intros; lia]|].
  cbv zeta in IH. destruct (first (Z.of_nat (S n))) eqn:E.
  - split; [lia|]. split; [auto|]. intros; lia.
  - destruct IH as (I1 & I2 & I3). split; [lia|]. split; [exact I2|]. intros j J. destruct (Z.eq_dec j (Z.of_nat (S n))) as [->|]; [exact E | apply I3; lia].
Qed.
Lemma scanUp_spec : forall last dflt n start, let t := scanUp last dflt start n in
  (t = dflt /\ forall j, start <= j < start + Z.of_nat n -> last j = false) \/
  (start <= t < start + Z.of_nat n /\ last t = true /\ forall j, start <= j < t -> last j = false).
Proof.
  intros last dflt. induction n as [|n IH]; intros start; cbn [scanUp]; cbv zeta; [left; split; [reflexivity | intros; lia]|].
  destruct (last start) eqn:E.
  - right. split; [lia|]. split; [exact E|]. intros; lia.
  - destruct (IH (start + 1)) as [(I1 & I2)|(I1 & I2 & I3)]; [left | right].
    + split; [exact I1|]. intros j J. destruct (Z.eq_dec j start) as [->|]; [exact E | apply I2; lia].
    + split; [lia|]. split; [exact I2|]. intros j J. destruct (Z.eq_dec j start) as [->|]; [exact E | apply I3; lia].
Qed.

Lemma nthz_cons : forall A (x : A) l i, 0 < i -> nthz (x :: l) i = nthz l (i - 1).
Proof.
  intros A x l i I. unfold nthz. destruct (Z.ltb_spec i 0); [lia|]. destruct (Z.ltb_spec (i - 1) 0); [lia|].
  replace (Z.to_nat i) with (S (Z.to_nat (i - 1))) by lia. reflexivity.
Qed.
Lemma nthz_0 : forall A (x : A) l, nthz (x :: l) 0 = Some x.
Proof. reflexivity. Qed.
Lemma nthz_neg : forall A (l : list A) i, i < 0 -> nthz l i = None.
Proof. intros A l i I. unfold nthz. destruct (Z.ltb_spec i 0); [reflexivity | lia]. Qed.

Lemma takeOut_spec : forall sel ws i acc, Z.abs acc + absSum ws <= INT_MAX ->
  exists a ws', takeOut sel i acc ws = Ok (a, ws') /\ length ws' = length ws /\ a + total ws' = acc + total ws /\ Z.abs a + absSum ws' <= Z.abs acc + absSum ws /\
    forall j, nthz ws' j = option_map (fun w => if sel (i + j) then 0 else w) (nthz ws j).
Proof.
  intros sel. induction ws as [|w ws IH]; intros i acc A.
  - exists acc, []. do 3 (split; [reflexivity|]). split; [lia|]. intros j. unfold nthz. destruct (j <? 0); [reflexivity|]. destruct (Z.to_nat j); reflexivity.
  - rewrite absSum_cons in *. pose proof (absSum_nonneg ws). cbn [takeOut].
    assert (N : forall v ws' (v' : Z), v' = (if sel i then 0 else v) -> (forall j, nthz ws' j = option_map (fun w => if sel (i + 1 + j) then 0 else w) (nthz ws j)) ->
      forall j, nthz (v' :: ws') j = option_map (fun w => if sel (i + j) then 0 else w) (nthz (v :: ws) j)).
    { intros v ws' v' -> Q j. destruct (Z_lt_le_dec j 0); [rewrite !nthz_neg by lia; reflexivity|].
      destruct (Z.eq_dec j 0) as [->|]; [rewrite !nthz_0, Z.add_0_r; reflexivity|]. rewrite !nthz_cons by lia. rewrite Q. replace (i + 1 + (j - 1)) with (i + j) by lia. reflexivity. }
    destruct (sel i) eqn:S.
    + rewrite chk32_ok by lia. cbn [obind]. destruct (IH (i + 1) (acc + w) ltac:(lia)) as (a & ws' & E & L & T & AB & Q). rewrite E. cbn [obind fst snd].
      exists a, (0 :: ws'). split; [reflexivity|]. split; [cbn [length]; lia|]. rewrite !total_cons, absSum_cons. split; [lia|]. split; [lia|]. apply N; auto.
    + destruct (IH (i + 1) acc ltac:(lia)) as (a & ws' & E & L & T & AB & Q). rewrite E. cbn [obind fst snd].
      exists a, (w :: ws'). split; [reflexivity|]. split; [cbn [length]; lia|]. rewrite !total_cons, absSum_cons. split; [lia|]. split; [lia|]. apply N; auto.
Qed.

Lemma addAt_spec : forall v ws n, (n < length ws)%nat -> Z.abs v + absSum ws <= INT_MAX ->
  exists ws', addAt n v ws = Ok ws' /\ length ws' = length ws /\ total ws' = v + total ws /\ absSum ws' <= Z.abs v + absSum ws /\
    forall j, j <> Z.of_nat n -> nthz ws' j = nthz ws j.
Proof.
  intros v. induction ws as [|w ws IH]; intros n N A; [cbn in N; lia|]. rewrite absSum_cons in *. pose proof (absSum_nonneg ws). destruct n as [|n]; cbn [addAt].
  - rewrite chk32_ok by lia. cbn [obind]. eexists. split; [reflexivity|]. rewrite !total_cons, !absSum_cons. split; [reflexivity|]. split; [lia|]. split; [lia|].
    intros j J. destruct (Z_lt_le_dec j 0); [rewrite !nthz_neg by lia; reflexivity|]. rewrite !nthz_cons by lia. reflexivity.
  - destruct (IH n ltac:(cbn in N; lia) ltac:(lia)) as (ws' & E & L & T & AB & Q). rewrite E. cbn [obind]. eexists. split; [reflexivity|].
    rewrite !total_cons, !absSum_cons. split; [cbn [length]; lia|]. split; [lia|]. split; [lia|].
    intros j J. destruct (Z_lt_le_dec j 0); [rewrite !nthz_neg by lia; reflexivity|]. destruct (Z.eq_dec j 0) as [->|]; [reflexivity|]. rewrite !nthz_cons by lia. apply Q. lia.
Qed.

Lemma nthz_lt : forall A (l : list A) i x, nthz l i = Some x -> 0 <= i < zlength l.
Proof.
  intros A l i x H. unfold nthz in H. destruct (Z.ltb_spec i 0); [discriminate|]. unfold zlength.
  assert (nth_error l (Z.to_nat i) <> None) by congruence. apply nth_error_Some in H1. lia.
Qed.

Theorem redistribute_spec : forall first last ws, ws <> [] -> absSum ws <= INT_MAX ->
  exists ws', redistribute first last ws = Ok ws' /\ sceneWeights first last (zlength ws / 2) ws ws' /\ absSum ws' <= absSum ws.
Proof.
  intros first last ws NE A. unfold redistribute. set (size := zlength ws). set (mid := size / 2).
  assert (S1 : 1 <= size) by (unfold size, zlength; destruct ws; [contradiction | cbn [length]; lia]).
  assert (M : 0 <= mid < size) by (unfold mid; split; [apply Z.div_pos; lia | apply Z.div_lt_upper_bound; lia]).
  pose proof (scanDown_spec first (Z.to_nat mid)) as D. pose proof (scanUp_spec last size (Z.to_nat (size - 1 - mid)) mid) as U. cbv zeta in D, U.
  rewrite !Z2Nat.id in D by lia. rewrite !Z2Nat.id in U by lia. set (from := scanDown first (Z.to_nat mid)) in *. set (to := scanUp last size mid (Z.to_nat (size - 1 - mid))) in *.
  destruct (takeOut_spec (fun i => to <? i) ws 0 0 ltac:(lia)) as (a1 & w1 & E1 & L1 & T1 & A1 & Q1). rewrite E1. cbn [obind fst snd].
  destruct (takeOut_spec (fun i => i <? from) w1 0 a1 ltac:(lia)) as (a2 & w2 & E2 & L2 & T2 & A2 & Q2). rewrite E2. cbn [obind fst snd].
  destruct (addAt_spec a2 w2 (Z.to_nat mid)) as (w3 & E3 & L3 & T3 & A3 & Q3); [unfold size, zlength in *; lia | lia|].
  exists w3. split; [exact E3|]. split; [|lia]. split; [unfold zlength; congruence|]. split; [change (total w3 = total ws); lia|].
  intros i w w' I N N'. rewrite Q3 in N' by lia. rewrite Q2, Q1, N in N'. cbn [option_map] in N'. injection N' as N'. rewrite ?Z.add_0_l in N'.
  apply nthz_lt in N. change (zlength ws) with size in N. change (zlength ws / 2) with mid in *.
  split.
  - intros (I1 & I2). assert (F : (i <? from) = false).
    { destruct (Z.ltb_spec i from); [|reflexivity]. destruct D as (D1 & [D2|D2] & _); [lia|]. rewrite (I1 from) in D2 by lia. discriminate. }
    assert (T : (to <? i) = false).
    { destruct (Z.ltb_spec to i); [|reflexivity]. destruct U as [(U1 & _)|(U1 & U2 & _)]; [lia|]. rewrite (I2 to) in U2 by lia. discriminate. }
    rewrite F, T in N'. auto.
  - intros NI. destruct (Z.ltb_spec i from); [auto|]. destruct (Z.ltb_spec to i); [auto|]. exfalso. apply NI. split.
    + intros j J. apply D. lia.
    + intros j J. destruct U as [(_ & U2)|(_ & _ & U3)]; [apply U2; lia | apply U3; lia].
Qed.

(** ** Frame numbers *)
Theorem fetches_requested : forall n size, 0 <= n < INT_MAX -> 1 <= size <= 31 -> incl (avgFetches n size) (avgRequests n (size / 2)).
Proof.
  intros n size N S. assert (R : 0 <= size / 2 <= 15) by (pose proof (Z.div_mod size 2 ltac:(lia)); pose proof (Z.mod_pos_bound size 2 ltac:(lia)); lia).
  assert (SZ : size - 1 <= 2 * (size / 2)) by (pose proof (Z.div_mod size 2 ltac:(lia)); pose proof (Z.mod_pos_bound size 2 ltac:(lia)); lia).
  set (r := size / 2) in *. unfold avgFetches. fold r.
  assert (IN : forall i, Z.max 0 (n - r) <= i <= avgLast n r -> In i (avgRequests n r)).
  { intros i I. unfold avgRequests. cbv zeta. apply in_map_iff. exists (i - Z.max 0 (n - r)). split; [lia|]. apply In_zseq. lia. }
  assert (G : forall c fn, n - r <= fn -> (fn <= avgLast n r \/ c = O) -> fn + Z.of_nat c <= n + r + 1 \/ (avgLast n r = INT_MAX - 1 /\ fn <= INT_MAX - 1) ->
     forall i, In i (avgFetch c fn) -> In i (avgRequests n r)).
  { induction c as [|c IH]; intros fn F1 F2 F3 i; cbn [avgFetch]; [intros []|]. intros [<-|Q].
    - apply IN. unfold avgLast in *. destruct F2 as [F2|]; [|discriminate]. destruct (Z.ltb_spec (INT_MAX - 1 - r) n); unfold INT_MAX in *; lia.
    - destruct F2 as [F2|]; [|discriminate]. revert Q. apply IH.
      + destruct (fn <? INT_MAX - 1); lia.
      + destruct c as [|c]; [right; reflexivity | left]. unfold avgLast in *. destruct (Z.ltb_spec fn (INT_MAX - 1)); destruct (Z.ltb_spec (INT_MAX - 1 - r) n); lia.
      + unfold avgLast in *. destruct (Z.ltb_spec fn (INT_MAX - 1)); destruct (Z.ltb_spec (INT_MAX - 1 - r) n); lia. }
  intros i I. eapply G; [| | |exact I]; [lia | left; unfold avgLast; destruct (Z.ltb_spec (INT_MAX - 1 - r) n); lia|].
  rewrite Z2Nat.id by lia. left. lia.
Qed.
(** Fetched are the neighbours of frame [n], the first frame standing in for what would precede it. *)
Theorem fetches_neighbours : forall n size, 0 <= n -> 1 <= size <= 31 -> n + size < INT_MAX ->
  avgFetches n size = map (fun i => Z.max 0 (n - size / 2 + i)) (zseq size).
Proof.
  intros n size N S B. unfold avgFetches. assert (H : 0 <= size / 2) by (apply Z.div_pos; lia).
  assert (G : forall c fn, fn + Z.of_nat c < INT_MAX -> avgFetch c fn = map (fun i => Z.max 0 (fn + i)) (zseq (Z.of_nat c))).
  { induction c as [|c IH]; intros fn F; [reflexivity|]. cbn [avgFetch]. rewrite Nat2Z.inj_succ. unfold Z.succ.
    rewrite zseq_cons by lia. cbn [map]. rewrite Z.add_0_r. f_equal. destruct (Z.ltb_spec fn (INT_MAX - 1)); [|lia]. rewrite IH by lia.
    rewrite map_map. apply map_ext. intros a. lia. }
  rewrite G; rewrite Z2Nat.id by lia; [reflexivity | lia].
Qed.
