(** The mixing matrix: weights, silent outputs and loudness. *)
From Coq Require Import ZArith List Bool Lia.
From Coq Require Import SpecFloat.
From Verif Require Import Common PlaneMem Soft SoftNum SoftErr SoftVal ConvertLemmas ConvertRound MixSpec Mix MixLemmas MixBuild MixLoud.
Import ListNotations.
Open Scope Z_scope.

Definition loudOk (p : fl) : Prop := norm p /\ within (-2) 8 p /\ 0 <= V p.
Lemma peak_fold : forall rows p, (forall r, In r rows -> loudOk r) -> loudOk p -> let q := fold_left fmax rows p in loudOk q /\ V p <= V q /\ forall r, In r rows -> V r <= V q.
Proof.
  induction rows as [|r rows IH]; intros p R P; cbn [fold_left]; cbv zeta. { split; [exact P|]. split; [lia|intros r []]. }
  pose proof (R r (or_introl eq_refl)) as RR. assert (F : fmax p r = if V p <? V r then r else p) by (unfold fmax; rewrite ltb_val by (apply P || apply RR); reflexivity).
  assert (L : loudOk (fmax p r)) by (rewrite F; destruct (V p <? V r); assumption). destruct (IH (fmax p r) (fun x X => R x (or_intror X)) L) as (Q1 & Q2 & Q3).
  assert (B : V p <= V (fmax p r) /\ V r <= V (fmax p r)) by (rewrite F; destruct (Z.ltb_spec (V p) (V r)); lia). split; [exact Q1|]. split; [lia|]. intros x [<-|X]; [lia|apply Q3; exact X].
Qed.
Lemma loud_pos : forall p, loudOk p -> 0 < V p -> exists m e, p = S754_finite false m e /\ Zdigits2 (Z.pos m) = 53 /\ -54 <= e <= -45.
Proof.
  intros [s|s| |s m e] (N & W & P0) P; try contradiction; cbn [V] in P; try lia. destruct N as (D & E). exists m, e. cbn [within] in W. split; [|split; [exact D|lia]]. f_equal. destruct s; [|reflexivity]. exfalso. pose proof (V_sign m e ltac:(lia)). cbn [signed] in P. rewrite Z.mul_opp_l in P. lia.
Qed.
Lemma to32_val : forall m e, Zdigits2 (Z.pos m) = 53 -> -115 <= e <= 50 -> let y := to32 (S754_finite false m e) in 0 <= V y /\ Z.abs (V y - Z.pos m * 2 ^ (e + sc)) * 2 ^ 24 <= Z.pos m * 2 ^ (e + sc).
Proof.
  intros m e D E. assert (SC : sc = 1074) by reflexivity. cbv zeta. cbn [to32]. destruct (round_rel 24 128 ltac:(lia) false m e) as (q & e' & RR & DQ & EE & NR); [rewrite D; unfold SpecFloat.emin; lia|rewrite D; lia|]. rewrite D in EE. rewrite RR. cbn [V signed]. split; [pose proof (V_sign q e' ltac:(lia)); lia|]. apply near_Z24; [lia|lia|exact NR].
Qed.

Lemma one_val : norm (of64 1 0) /\ V (of64 1 0) = 2 ^ sc.
Proof. destruct (of64_val 1 0) as (N & E); [cbn; lia|lia|]. split; [exact N|]. rewrite E. cbn [Z.add]. lia. Qed.
(** Division leaves zero zero and keeps the others apart from it. *)
Lemma div_number : forall p l, loudOk p -> 2 ^ sc < V p -> match l with None => div64 (number l) p = S754_zero false
  | Some _ => exists q e, div64 (number l) p = S754_finite false q e /\ Zdigits2 (Z.pos q) = 53 /\ -70 <= e <= -48 /\ Z.abs (Z.pos q * 2 ^ (e + sc) * V p - V (number l) * 2 ^ sc) * 2 ^ 53 <= V (number l) * 2 ^ sc end.
Proof.
  intros p l LP P. pose proof sc_pos as SP. destruct (loud_pos p LP ltac:(lia)) as (m & e & EP & D & E). rewrite EP. assert (SC : sc = 1074) by reflexivity.
  assert (E2 : e >= -52). { destruct (Z_lt_le_dec e (-52)) as [L|]; [exfalso|lia]. rewrite EP in P. cbn [V signed] in P. pose proof (digits53 m D) as MB. assert (2 ^ (e + sc) <= 2 ^ (-53 + sc)) by (apply Z.pow_le_mono_r; lia). assert (Q2 : 2 ^ sc = 2 ^ 53 * 2 ^ (-53 + sc)) by (rewrite <- Z.pow_add_r by lia; f_equal; lia). pose proof (pow_pos (e + sc) ltac:(lia)). rewrite Q2 in P. nia. }
  destruct l as [l|]; [|reflexivity]. destruct (number_val (Some l)) as (NN & [(Q & _)|(m1 & e1 & EN & E1 & _)]); [discriminate Q|]. rewrite EN in *. destruct NN as (D1 & _). destruct (div_val m1 e1 m e D1 D ltac:(lia) ltac:(lia)) as (q & e' & R & DQ & EE & B). exists q, e'. split; [exact R|]. split; [exact DQ|]. split; [lia|]. exact B.
Qed.
Definition scaled (p : fl) (l : option lev) : fl := to32 (if SFltb (of64 1 0) p then div64 (number l) p else number l).
Lemma scales : forall p, loudOk p -> SFltb (of64 1 0) p = (2 ^ sc <? V p).
Proof. intros p L. destruct one_val as (N & E). rewrite ltb_val; [rewrite E; reflexivity|exact N|apply L]. Qed.
Lemma weight_val : forall p l, loudOk p -> let w := V (scaled p l) in let v := V (number l) in
  0 <= w /\ if 2 ^ sc <? V p then w * V p * 2 ^ 77 <= v * 2 ^ sc * ((2 ^ 53 + 1) * (2 ^ 24 + 1)) else w * 2 ^ 24 <= v * (2 ^ 24 + 1).
Proof.
  intros p l LP. cbv zeta. unfold scaled. rewrite scales by exact LP. pose proof sc_pos as SP. destruct (Z.ltb_spec (2 ^ sc) (V p)) as [P|P].
  - pose proof (div_number p l LP P) as DV. destruct l as [l|].
    + destruct DV as (q & e & -> & D & E & B). destruct (to32_val q e D ltac:(lia)) as (T0 & T1). split; [exact T0|]. set (w := V (to32 (S754_finite false q e))) in *. set (x := Z.pos q * 2 ^ (e + sc)) in *. set (v := V (number (Some l))) in *. set (vp := V p) in *. set (u := 2 ^ sc) in *. assert (W1 : w * 2 ^ 24 <= x * (2 ^ 24 + 1)) by lia. assert (X1 : x * vp * 2 ^ 53 <= v * u * (2 ^ 53 + 1)) by lia. clearbody w x v vp u. assert (PP : 0 < vp) by lia. clear p LP P. rename vp into p.
      change (2 ^ 77) with (2 ^ 24 * 2 ^ 53). replace (w * p * (2 ^ 24 * 2 ^ 53)) with (w * 2 ^ 24 * (p * 2 ^ 53)) by ring. apply Z.le_trans with (x * (2 ^ 24 + 1) * (p * 2 ^ 53)); [apply Z.mul_le_mono_nonneg_r; [lia|exact W1]|]. replace (x * (2 ^ 24 + 1) * (p * 2 ^ 53)) with (x * p * 2 ^ 53 * (2 ^ 24 + 1)) by ring. replace (v * u * ((2 ^ 53 + 1) * (2 ^ 24 + 1))) with (v * u * (2 ^ 53 + 1) * (2 ^ 24 + 1)) by ring. apply Z.mul_le_mono_nonneg_r; [lia|exact X1].
    + rewrite DV. cbn [to32 V number]. lia.
  - destruct (number_val l) as (NN & [(_ & ->)|(m & e & EN & E & B)]); [cbn [to32 V]; lia|]. rewrite EN in NN |- *. destruct NN as (D & _). destruct (to32_val m e D ltac:(lia)) as (T0 & T1). split; [exact T0|]. change (V (S754_finite false m e)) with (Z.pos m * 2 ^ (e + sc)). lia.
Qed.
Lemma ratio : forall S u a b, 0 <= S -> 0 <= u -> 0 < a -> b * 2 ^ 23 <= a * (2 ^ 23 + 1) -> S * a <= u * b -> S * 2 ^ 23 <= u * (2 ^ 23 + 1).
Proof. intros S u a b S0 U A R H. apply Z.mul_le_mono_pos_r with a; [exact A|]. change (2 ^ 23) with 8388608 in *. nia. Qed.
(** The weights into one output, when normalised, add up to at most one (up to a part in 2^23). *)
Lemma loud_gen : forall p ls, loudOk p -> Z.of_nat (length ls) <= 64 -> V (rowSum (map number ls)) <= V p -> fold_right (fun l a => V (scaled p l) + a) 0 ls * 2 ^ 23 <= 2 ^ sc * (2 ^ 23 + 1).
Proof.
  intros p ls LP GC PK. pose proof sc_pos as SP. destruct (row_sum ls GC) as (_ & C & R & _). set (s := V (rowSum (map number ls))) in *. set (T := sumV ls) in *.
  assert (TS : T * (2 ^ 52 - 64) <= s * 2 ^ 52) by nia.
  assert (SUM : 0 <= fold_right (fun l a => V (scaled p l) + a) 0 ls /\ if 2 ^ sc <? V p then fold_right (fun l a => V (scaled p l) + a) 0 ls * V p * 2 ^ 77 <= T * 2 ^ sc * ((2 ^ 53 + 1) * (2 ^ 24 + 1)) else fold_right (fun l a => V (scaled p l) + a) 0 ls * 2 ^ 24 <= T * (2 ^ 24 + 1)).
  { unfold T. clear - LP. induction ls as [|l ls IH]. { cbn [fold_right sumV]. destruct (2 ^ sc <? V p); lia. }
    cbn [fold_right sumV]. fold (sumV ls). pose proof (weight_val p l LP) as W. cbv zeta in W. destruct W as (W0 & W), IH as (I0 & IH). split; [lia|]. destruct (2 ^ sc <? V p); [|lia]. set (w := V (scaled p l)) in *. set (r := fold_right _ 0 ls) in *. set (v := V (number _)) in *. set (t := sumV _) in *. clearbody w r v t. set (q := V p) in *. set (u := 2 ^ sc) in *. set (k := (2 ^ 53 + 1) * (2 ^ 24 + 1)) in *. clearbody q u k.
    replace ((w + r) * q * 2 ^ 77) with (w * q * 2 ^ 77 + r * q * 2 ^ 77) by ring. replace ((v + t) * u * k) with (v * u * k + t * u * k) by ring. lia. }
  set (S := fold_right _ 0 ls) in *. set (vp := V p) in *. set (u := 2 ^ sc) in *. clearbody S vp u T s. clear C R LP p. rename vp into p. destruct SUM as (S0 & SUM). destruct (Z.ltb_spec u p) as [L|L].
  - assert (TP : T * (2 ^ 52 - 64) <= p * 2 ^ 52) by lia.
    assert (B : S * p * (2 ^ 77 * (2 ^ 52 - 64)) <= p * 2 ^ 52 * u * ((2 ^ 53 + 1) * (2 ^ 24 + 1))).
    { replace (S * p * (2 ^ 77 * (2 ^ 52 - 64))) with (S * p * 2 ^ 77 * (2 ^ 52 - 64)) by ring. apply Z.le_trans with (T * u * ((2 ^ 53 + 1) * (2 ^ 24 + 1)) * (2 ^ 52 - 64)); [apply Z.mul_le_mono_nonneg_r; [lia|exact SUM]|]. replace (T * u * ((2 ^ 53 + 1) * (2 ^ 24 + 1)) * (2 ^ 52 - 64)) with (T * (2 ^ 52 - 64) * (u * ((2 ^ 53 + 1) * (2 ^ 24 + 1)))) by ring. replace (p * 2 ^ 52 * u * ((2 ^ 53 + 1) * (2 ^ 24 + 1))) with (p * 2 ^ 52 * (u * ((2 ^ 53 + 1) * (2 ^ 24 + 1)))) by ring. apply Z.mul_le_mono_nonneg_r; [lia|exact TP]. }
    assert (B2 : S * (2 ^ 77 * (2 ^ 52 - 64)) <= 2 ^ 52 * u * ((2 ^ 53 + 1) * (2 ^ 24 + 1))). { apply Z.mul_le_mono_pos_l with p; [lia|]. replace (p * (S * (2 ^ 77 * (2 ^ 52 - 64)))) with (S * p * (2 ^ 77 * (2 ^ 52 - 64))) by ring. replace (p * (2 ^ 52 * u * ((2 ^ 53 + 1) * (2 ^ 24 + 1)))) with (p * 2 ^ 52 * u * ((2 ^ 53 + 1) * (2 ^ 24 + 1))) by ring. exact B. }
    clear - B2 SP S0. apply (ratio S u (2 ^ 77 * (2 ^ 52 - 64)) (2 ^ 52 * ((2 ^ 53 + 1) * (2 ^ 24 + 1)))); [lia|lia|vm_compute; reflexivity|vm_compute; discriminate|]. replace (u * (2 ^ 52 * ((2 ^ 53 + 1) * (2 ^ 24 + 1)))) with (2 ^ 52 * u * ((2 ^ 53 + 1) * (2 ^ 24 + 1))) by ring. exact B2.
  - assert (TP : T * (2 ^ 52 - 64) <= u * 2 ^ 52) by lia. assert (B : S * 2 ^ 24 * (2 ^ 52 - 64) <= u * 2 ^ 52 * (2 ^ 24 + 1)). { apply Z.le_trans with (T * (2 ^ 24 + 1) * (2 ^ 52 - 64)); [apply Z.mul_le_mono_nonneg_r; [lia|exact SUM]|]. replace (T * (2 ^ 24 + 1) * (2 ^ 52 - 64)) with (T * (2 ^ 52 - 64) * (2 ^ 24 + 1)) by ring. apply Z.mul_le_mono_nonneg_r; [lia|exact TP]. }
    clear - B SP S0. apply (ratio S u (2 ^ 24 * (2 ^ 52 - 64)) (2 ^ 52 * (2 ^ 24 + 1))); [lia|lia|vm_compute; reflexivity|vm_compute; discriminate|]. rewrite !Z.mul_assoc. exact B.
Qed.
Lemma scale_eq : forall ni no (m : cells) p, peak ni no m = Ok p -> scale ni no m = Ok (fun i => if SFltb (of64 1 0) p then div64 (m i) p else m i).
Proof. intros ni no m p E. unfold scale. rewrite E. cbn [obind]. unfold one. destruct (SFltb (of64 1 0) p); reflexivity. Qed.
Lemma len_z : forall (l : list Z), zlength l <= 64 -> Z.of_nat (length l) <= 64.
Proof. intros l H. exact H. Qed.
Section Layouts.
Variables inL outL : Z.
Notation ins := (channelsOf inL).
Notation outs := (channelsOf outL).
Definition thePeak : fl := peakOf (map (plainRow inL outL) outs).
Lemma peak_fold_eq : peakOf (map (plainRow inL outL) outs) = thePeak.
Proof. unfold thePeak. reflexivity. Qed.
Lemma weight_eq : forall n c o, weight inL outL n c o = to32 (if n && SFltb (of64 1 0) thePeak then div64 (number (gain (inLayout outL) c o)) thePeak else number (gain (inLayout outL) c o)).
Proof. intros. unfold weight, thePeak. cbv zeta. reflexivity. Qed.
Definition gains (o : Z) : list (option lev) := map (fun c => gain (inLayout outL) c o) ins.
Lemma row_gains : forall o, plainRow inL outL o = map number (gains o).
Proof. intros o. unfold plainRow, gains. rewrite map_map. reflexivity. Qed.
Lemma gains_count : forall o, Z.of_nat (length (gains o)) <= 64.
Proof. intros o. unfold gains. rewrite map_length. apply len_z, channels_count. Qed.
Lemma row_ok : forall o, sumOk (rowSum (plainRow inL outL o)) (Z.of_nat (length (gains o))) (sumV (gains o)).
Proof. intros o. rewrite row_gains. apply row_sum, gains_count. Qed.
Lemma peak_ok : loudOk thePeak /\ forall o, In o outs -> V (rowSum (plainRow inL outL o)) <= V thePeak.
Proof.
  unfold thePeak, peakOf. destruct (peak_fold (map rowSum (map (plainRow inL outL) outs)) (S754_zero false)) as (A & _ & C).
  - intros r R. apply in_map_iff in R. destruct R as (x & <- & X). apply in_map_iff in X. destruct X as (o & <- & _). pose proof (row_ok o) as RO. destruct (sumOk_within _ _ _ (conj (Nat2Z.is_nonneg _) (gains_count o)) RO) as (W & B). split; [apply RO|]. split; [exact W|lia].
  - split; [exact I|]. split; [exact I|cbn; lia].
  - split; [exact A|]. intros o O. apply C. apply in_map, in_map. exact O.
Qed.
Lemma weight_scaled : forall n c o, weight inL outL n c o = if n then scaled thePeak (gain (inLayout outL) c o) else to32 (number (gain (inLayout outL) c o)).
Proof. intros n c o. rewrite weight_eq. generalize (gain (inLayout outL) c o) thePeak. intros l p. destruct n; reflexivity. Qed.
Theorem mix_loud : forall o, In o outs -> fold_right (fun c a => V (weight inL outL true c o) + a) 0 ins * 2 ^ 23 <= 2 ^ sc * (2 ^ 23 + 1).
Proof.
  intros o O. pose proof (loud_gen thePeak (gains o) (proj1 peak_ok) (gains_count o)) as L. rewrite <- row_gains in L. specialize (L (proj2 peak_ok o O)).
  replace (fold_right (fun c a => V (weight inL outL true c o) + a) 0 ins) with (fold_right (fun l a => V (scaled thePeak l) + a) 0 (gains o)); [exact L|]. clear L O. unfold gains. generalize ins. intros l. induction l as [|c l IH]; [reflexivity|]. cbn [map fold_right]. rewrite IH, (weight_scaled true). reflexivity.
Qed.
(** The matrix. *)
Theorem mix_built : forall normalize, exists w silent, buildMixMatrix inL outL normalize = Ok (w, silent) /\
  forall o co, nthz outs o = Some co ->
    (forall i ci, nthz ins i = Some ci -> w (o * zlength ins + i) = weight inL outL normalize ci co) /\
    silent o = Ok (forallb (fun c => match gain (inLayout outL) c co with None => true | Some _ => false end) ins).
Proof.
  intros normalize. unfold buildMixMatrix. cbv zeta. rewrite !channels_eq. destruct (index_loop outL) as (f & -> & IX). cbn [obind]. destruct (feed_loop inL outL f IX) as (m & -> & FI). cbn [obind].
  assert (SC : (if normalize then scale (zlength ins) (zlength outs) m else Ok m) = Ok (fun i => if normalize && SFltb (of64 1 0) thePeak then div64 (m i) thePeak else m i)).
  { destruct normalize; [|reflexivity]. rewrite (scale_eq (zlength ins) (zlength outs) m thePeak); [rewrite andb_true_l; reflexivity|]. rewrite (peak_is inL outL m FI), peak_fold_eq. reflexivity. }
  rewrite SC. cbn [obind]. eexists. eexists. split; [reflexivity|]. intros o co O. split.
  - intros i ci I. rewrite (cell_is inL outL m FI _ _ _ _ O I), weight_eq. reflexivity.
  - rewrite silent_is by (apply (nthz_range _ _ _ _ O)). f_equal.
    assert (G : forall i ci, nthz ins i = Some ci -> SFeqb (if normalize && SFltb (of64 1 0) thePeak then div64 (m (o * zlength ins + i)) thePeak else m (o * zlength ins + i)) (S754_zero false) = match gain (inLayout outL) ci co with None => true | Some _ => false end).
    { intros i ci I. rewrite (cell_is inL outL m FI _ _ _ _ O I). destruct normalize; cbn [andb]; [|apply number_none]. rewrite scales by apply peak_ok. destruct (Z.ltb_spec (2 ^ sc) (V thePeak)) as [P|P]; [|apply number_none]. pose proof (div_number thePeak (gain (inLayout outL) ci co) (proj1 peak_ok) P) as DV. destruct (gain (inLayout outL) ci co) as [l|]; [destruct DV as (q & e & -> & _)|rewrite DV]; reflexivity. }
    assert (FB : forall (A : Type) (p : A -> bool) l, forallb p l = fold_right andb true (map p l)). { intros A p l. induction l as [|a l IH]; [reflexivity|]. cbn [forallb map fold_right]. rewrite IH. reflexivity. }
    rewrite !FB. f_equal. apply map_index. exact G.
Qed.
End Layouts.
