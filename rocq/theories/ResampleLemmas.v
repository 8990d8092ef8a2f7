(** Frames of AudioResample. *)
From Coq Require Import ZArith List Bool Lia FinFun.
From Coq Require Import SpecFloat.
From Verif Require Import Common AudioSpec Audio AudioLemmas PlaneMem Soft ResampleSpec Resample.
Import ListNotations.
Open Scope Z_scope.

Lemma inOrder_ext : forall {A B} (f g : A -> outcome B) l, (forall x, In x l -> f x = g x) -> inOrder f l = inOrder g l.
Proof.
  intros A B f g l H. induction l as [|x l IH]; [reflexivity|]. cbn [inOrder]. rewrite (H x) by (left; reflexivity). rewrite IH by (intros; apply H; right; assumption). reflexivity.
Qed.
Lemma forZ_ext : forall {S} (f g : Z -> S -> outcome S) n s, (forall j t, 0 <= j < n -> f j t = g j t) -> forZ n f s = forZ n g s.
Proof.
  intros S f g n s. unfold forZ. assert (H : forall k i s, (forall j t, i <= j < i + Z.of_nat k -> f j t = g j t) -> loop k i f s = loop k i g s).
  { induction k as [|k IH]; intros i s0 H; [reflexivity|]. cbn [loop]. rewrite H by lia. destruct (g i s0); cbn [obind]; try reflexivity. apply IH. intros; apply H; lia. }
  intros E. apply H. intros j t J. apply E. lia.
Qed.
Lemma floorDiv_spec : forall a, floorDiv a AFS = a / AFS.
Proof.
  intros a. unfold floorDiv. change AFS with 3072. destruct (Z.leb_spec 0 a) as [A|A].
  - rewrite Z.quot_div_nonneg by lia. destruct (Z.ltb_spec a 0); [lia|]. rewrite andb_false_r. reflexivity.
  - destruct (Z.ltb_spec a 0); [|lia]. rewrite andb_true_r. pose proof (Z.quot_rem' a 3072) as Q. pose proof (Z.rem_bound_pos_neg a 3072 ltac:(lia) ltac:(lia)) as R. destruct (Z.eqb_spec (Z.rem a 3072) 0) as [E|E]; cbn [negb].
    + apply Z.div_unique_exact; lia.
    + apply Z.div_unique with (Z.rem a 3072 + 3072); lia.
Qed.

Section Frames.
Context {S D : Type}.
Variable load : S -> fl.
Variable store : Z -> Z -> fl -> outcome (D * bool).
Variable coeff : Z -> Z -> fl.
Variable silence : D.
Variables (src : clip (Z -> S)) (N : Z) (s : stream (Z -> S)).
Hypothesis SV : serves src N s.
Variable d : plan.

(** What creation establishes. *)
Definition planOk : Prop :=
  0 <= pl_in d /\ 0 <= pl_out d /\ 1 <= pl_len d <= INT_MAX * AFS /\
  if pl_doResample d then
    let b := pl_bank d in 0 < bk_p b <= 2 ^ 16 /\ 0 < bk_q b < 2 ^ 31 /\ bk_q b <= 64 * bk_p b /\ 1 <= bk_half b <= 4096 /\ bk_taps b = 2 * bk_half b /\ bk_base b = bk_q b / bk_p b /\ bk_phase b = bk_q b mod bk_p b /\ outLength (bk_p b) (bk_q b) N (pl_len d)
  else pl_len d = N.
Hypothesis PO : planOk.

(** What an output channel holds before storing. *)
Definition mixedAt (oc i : Z) : fl := match pl_mix d with Some w => mixAt load s N w (pl_in d) oc i | None => sampleAt load s N oc i end.
Definition valueAt (oc m : Z) : fl := if pl_doResample d then filterAt coeff (bk_half (pl_bank d)) (bk_p (pl_bank d)) (bk_q (pl_bank d)) (mixedAt oc) m else mixedAt oc m.

Lemma clip_bound : 1 <= N <= INT_MAX * AFS.
Proof. destruct SV as (_ & B & _). exact B. Qed.
Lemma int64_small : forall x, -10 ^ 18 <= x <= 10 ^ 18 -> in_int64b x = true.
Proof. intros x X. apply in_int64b_spec. unfold in_int64, INT64_MIN, INT64_MAX. lia. Qed.

Record goodRange (n : Z) (r : range) : Prop := {
  gr_n : 0 <= n;
  gr_first : rg_firstOut r = AFS * n;
  gr_count : rg_outCount r = Z.min AFS (pl_len d - AFS * n);
  gr_pos : 0 < rg_outCount r;
  gr_in : 0 < rg_lastIn r - rg_firstIn r + 1 <= INT_MAX;
  gr_meets : rg_firstIn r < N /\ 0 <= rg_lastIn r;
  gr_max : -10 ^ 18 <= rg_firstIn r;
  gr_res : if pl_doResample d then
      let b := pl_bank d in rg_base r = whole (bk_p b) (bk_q b) (AFS * n) /\ rg_phase r = phaseOf (bk_p b) (bk_q b) (AFS * n) /\ rg_firstIn r = rg_base r - bk_half b + 1 /\ rg_lastIn r = whole (bk_p b) (bk_q b) (AFS * n + rg_outCount r - 1) + bk_half b
    else rg_firstIn r = AFS * n /\ rg_lastIn r = AFS * n + rg_outCount r - 1 }.

Lemma range_ok : forall n, 0 <= n -> AFS * n < pl_len d -> exists r, rangeOf d n = Ok r /\ goodRange n r.
Proof.
  intros n N0 NL. pose proof clip_bound as CB. destruct PO as (PI & PQ & LB & R). rewrite AFS_max in *. unfold rangeOf, mulL, addL. change AFS with 3072 in *.
  rewrite int64_small by lia. cbn [obind]. rewrite int64_small by lia. cbn [obind].
  assert (W : wrap32 (Z.min 3072 (pl_len d + - (n * 3072))) = Z.min 3072 (pl_len d - 3072 * n)) by (rewrite w32 by (unfold INT_MAX; lia); lia). rewrite W. set (k := Z.min 3072 (pl_len d - 3072 * n)).
  assert (K : 0 < k <= 3072 /\ 3072 * n + k <= pl_len d) by (unfold k; lia). assert (KD : k = Z.min 3072 (pl_len d - 3072 * n)) by reflexivity. clearbody k. clear W.
  destruct (pl_doResample d) eqn:DR.
  - cbv zeta in R. set (p := bk_p (pl_bank d)) in *. set (q := bk_q (pl_bank d)) in *. set (h := bk_half (pl_bank d)) in *. destruct R as (P & Q & QP & H & _ & _ & _ & (O1 & O2)). unfold whole in O1, O2.
    change (2 ^ 16) with 65536 in P. change (2 ^ 31) with 2147483648 in Q.
    assert (LQ : (pl_len d - 1) * q < N * p). { apply Z.nle_gt. intros C. assert (N <= (pl_len d - 1) * q / p) by (apply Z.div_le_lower_bound; lia). lia. }
    assert (NP : N * p <= 6597069763584 * 65536) by (apply Z.mul_le_mono_nonneg; lia).
    assert (M1 : 0 <= n * 3072 * q <= (pl_len d - 1) * q) by (split; [apply Z.mul_nonneg_nonneg; lia|apply Z.mul_le_mono_nonneg_r; lia]).
    assert (M2 : n * 3072 * q <= (n * 3072 + k - 1) * q <= (pl_len d - 1) * q) by (split; apply Z.mul_le_mono_nonneg_r; lia).
    rewrite int64_small by lia. cbn [obind]. rewrite int64_small by lia. cbn [obind]. rewrite int64_small by lia. cbn [obind].
    rewrite !Z.quot_div_nonneg by lia. rewrite Z.rem_mod_nonneg by lia.
    assert (B1 : 0 <= n * 3072 * q / p < N) by (split; [apply Z.div_pos; lia|apply Z.div_lt_upper_bound; lia]).
    assert (B2 : n * 3072 * q / p <= (n * 3072 + k - 1) * q / p < N) by (split; [apply Z.div_le_mono; lia|apply Z.div_lt_upper_bound; lia]).
    rewrite int64_small by lia. cbn [obind]. rewrite int64_small by lia. cbn [obind]. eexists. split; [reflexivity|].
    assert (B3 : (n * 3072 + k - 1) * q / p - n * 3072 * q / p <= 3072 * 64 + 1).
    { assert ((n * 3072 + k - 1) * q <= n * 3072 * q + (3072 * 64) * p). { replace ((n * 3072 + k - 1) * q) with (n * 3072 * q + (k - 1) * q) by ring. assert ((k - 1) * q <= 3072 * (64 * p)) by (apply Z.mul_le_mono_nonneg; lia). lia. }
      assert ((n * 3072 + k - 1) * q / p <= (n * 3072 * q + (3072 * 64) * p) / p) by (apply Z.div_le_mono; lia). rewrite Z.div_add in H1 by lia. lia. }
    constructor; cbn [rg_firstOut rg_outCount rg_base rg_phase rg_firstIn rg_lastIn]; try rewrite DR; try (unfold INT_MAX; change AFS with 3072; lia); try lia.
    change AFS with 3072. unfold whole, phaseOf. fold p q h. replace (3072 * n) with (n * 3072) by lia. split; [reflexivity|]. split; [reflexivity|]. split; [lia|]. reflexivity.
  - rewrite int64_small by lia. cbn [obind]. eexists. split; [reflexivity|]. constructor; cbn [rg_firstOut rg_outCount rg_base rg_phase rg_firstIn rg_lastIn]; try rewrite DR; change AFS with 3072; unfold INT_MAX; lia.
Qed.

(** *** Requests *)
Lemma wrap_small : forall x, 0 <= x <= INT_MAX -> wrap32 x = x.
Proof. intros; apply w32; assumption. Qed.
Lemma frames_bound : 1 <= c_frames src <= INT_MAX /\ AFS * (c_frames src - 1) < N <= AFS * c_frames src.
Proof. destruct SV as (_ & B & FF & _). split; [eapply framesFor_bound; eassumption|exact FF]. Qed.
Lemma frameRange_ok : forall n r, goodRange n r -> let x := frameRange (c_frames src) r in
  fst x = Z.max (rg_firstIn r / AFS) 0 /\ snd x = Z.min (rg_lastIn r / AFS) (c_frames src - 1) /\ 0 <= fst x <= snd x /\ snd x < c_frames src.
Proof.
  intros n r G. cbv zeta. unfold frameRange. cbn [fst snd]. rewrite !floorDiv_spec. destruct G as [_ _ _ _ (G1 & _) (G2 & G3) _ _]. pose proof frames_bound as (F1 & F2). change AFS with 3072 in *.
  split; [reflexivity|]. split; [reflexivity|].
  assert (rg_firstIn r / 3072 <= rg_lastIn r / 3072) by (apply Z.div_le_mono; lia).
  assert (0 <= rg_lastIn r / 3072) by (apply Z.div_pos; lia).
  assert (rg_firstIn r / 3072 <= c_frames src - 1) by (assert (rg_firstIn r / 3072 < c_frames src) by (apply Z.div_lt_upper_bound; lia); lia). lia.
Qed.
Lemma In_frameList : forall x f, In f (frameList x) <-> fst x <= f <= snd x.
Proof.
  intros x f. unfold frameList. rewrite in_map_iff. split.
  - intros (k & E & K). apply In_zseq in K. lia.
  - intros H. exists (f - fst x). split; [lia|]. apply In_zseq. lia.
Qed.
Lemma resampleRequests_ok : forall n r, rangeOf d n = Ok r -> goodRange n r ->
  resampleRequests d (c_frames src) n = Ok (map (fun f => (O, f)) (frameList (frameRange (c_frames src) r))) /\ (forall f, In f (frameList (frameRange (c_frames src) r)) -> 0 <= f < c_frames src) /\ frameList (frameRange (c_frames src) r) <> [].
Proof.
  intros n r E G. destruct (frameRange_ok n r G) as (_ & _ & F3 & F4). pose proof frames_bound as (F1 & _).
  assert (I : forall f, In f (frameList (frameRange (c_frames src) r)) -> 0 <= f < c_frames src) by (intros f I; apply In_frameList in I; lia).
  split; [|split].
  - unfold resampleRequests. rewrite E. cbn [obind]. f_equal. apply map_ext_in. intros f Hf. specialize (I f Hf). rewrite wrap_small by lia. reflexivity.
  - exact I.
  - intros C. assert (In (fst (frameRange (c_frames src) r)) (frameList (frameRange (c_frames src) r))) by (apply In_frameList; lia). rewrite C in H. exact H.
Qed.
Lemma getAll_ok : forall av l, (forall f, In f l -> 0 <= f < c_frames src /\ In (O, f) av) -> exists fs, getAll src av l = Ok fs /\ Forall2 (fun f x => holds N s f x) l fs.
Proof.
  intros av l. pose proof frames_bound as (F1 & _). induction l as [|f l IH]; intros H.
  - exists []. split; [reflexivity|constructor].
  - destruct (H f (or_introl eq_refl)) as (H1 & H2). cbn [getAll]. rewrite wrap_small by lia. rewrite (getFilter_ok [src] av 0 f src) by (try reflexivity; assumption).
    destruct SV as (_ & _ & _ & SG). destruct (SG f H1) as (x & G & HX). rewrite G. cbn [obind]. destruct IH as (fs & E & FA); [intros; apply H; right; assumption|]. rewrite E. cbn [obind]. exists (x :: fs). split; [reflexivity|]. constructor; assumption.
Qed.

(** *** Gathering *)
Definition upTo (firstIn inCount ch P : Z) (r : row) : Prop := forall i, 0 <= i < inCount -> r i = if firstIn + i <? P then sampleAt load s N ch (firstIn + i) else zero.
Lemma sampleAt_out : forall ch i, N <= i \/ i < 0 -> sampleAt load s N ch i = zero.
Proof. intros ch i H. unfold sampleAt. destruct (Z.leb_spec 0 i); destruct (Z.ltb_spec i N); cbn [andb]; try reflexivity. lia. Qed.
Lemma gatherFrame_ok : forall firstIn inCount ch k f r, 0 <= k -> AFS * k < N -> 0 <= inCount -> holds N s k f -> upTo firstIn inCount ch (AFS * k) r ->
  exists r', gatherFrame load firstIn inCount ch (k * AFS) f r = Ok r' /\ upTo firstIn inCount ch (AFS * (k + 1)) r'.
Proof.
  intros firstIn inCount ch k f r K KN C (HL & HB & HV) U. unfold gatherFrame.
  assert (AB : AFS = 3072) by reflexivity. assert (LF : 0 < af_len f <= 3072 /\ (af_len f < 3072 -> af_len f = N - 3072 * k) /\ 3072 * k + af_len f <= N) by (rewrite HL; lia).
  set (lo := Z.max (k * AFS) firstIn). set (hi := Z.min (k * AFS + af_len f) (firstIn + inCount)).
  destruct (Z.ltb_spec lo hi) as [LH|LH].
  - assert (B : 0 <= hi - lo <= 3072 /\ k * 3072 <= lo /\ firstIn <= lo /\ hi <= k * 3072 + af_len f /\ hi <= firstIn + inCount /\ (lo = k * 3072 \/ lo = firstIn) /\ (hi = k * 3072 + af_len f \/ hi = firstIn + inCount)) by (unfold lo, hi in *; rewrite AB in *; lia).
    rewrite wrap_small by (unfold INT_MAX; lia).
    assert (LO : lo = Z.max (k * 3072) firstIn) by reflexivity. clearbody lo hi.
    destruct (forZ_inv (fun j r' => forall i, 0 <= i < inCount -> r' i = if (lo <=? firstIn + i) && (firstIn + i <? lo + j) then sampleAt load s N ch (firstIn + i) else r i)
      (fun j r => match nthz (af_buf f) (lo - k * AFS + j) with Some (Some cell) => setRow inCount r (lo - firstIn + j) (load (cell ch)) | _ => UB end) (hi - lo) r) as (r' & E & R).
    + lia.
    + intros i I. destruct (Z.leb_spec lo (firstIn + i)); destruct (Z.ltb_spec (firstIn + i) (lo + 0)); cbn [andb]; try reflexivity. lia.
    + intros j t J P. destruct (HV (lo - k * AFS + j)) as (a & A1 & A2); [rewrite AB; lia|]. rewrite A1. unfold setRow. destruct (Z.leb_spec 0 (lo - firstIn + j)); [|lia]. destruct (Z.ltb_spec (lo - firstIn + j) inCount); [|lia]. cbn [andb]. eexists. split; [reflexivity|].
      intros i I. cbv beta. destruct (Z.eqb_spec i (lo - firstIn + j)) as [EI|EI].
      * destruct (Z.leb_spec lo (firstIn + i)); [|lia]. destruct (Z.ltb_spec (firstIn + i) (lo + (j + 1))); [|lia]. cbn [andb]. unfold sampleAt. destruct (Z.leb_spec 0 (firstIn + i)); [|lia]. destruct (Z.ltb_spec (firstIn + i) N); [|lia]. cbn [andb].
        replace (firstIn + i) with (AFS * k + (lo - k * AFS + j)) by lia. rewrite A2. reflexivity.
      * rewrite P by exact I. destruct (Z.leb_spec lo (firstIn + i)); destruct (Z.ltb_spec (firstIn + i) (lo + j)); destruct (Z.ltb_spec (firstIn + i) (lo + (j + 1))); cbn [andb]; try reflexivity; lia.
    + exists r'. split; [exact E|]. intros i I. rewrite R by exact I. rewrite U by exact I. rewrite AB.
      destruct (Z.leb_spec lo (firstIn + i)); destruct (Z.ltb_spec (firstIn + i) (lo + (hi - lo))); destruct (Z.ltb_spec (firstIn + i) (3072 * k)); destruct (Z.ltb_spec (firstIn + i) (3072 * (k + 1))); cbn [andb]; try reflexivity; try lia.
      symmetry. apply sampleAt_out. lia.
  - exists r. split; [reflexivity|]. intros i I. rewrite U by exact I. unfold lo, hi in LH. rewrite AB in *.
    destruct (Z.ltb_spec (firstIn + i) (3072 * k)); destruct (Z.ltb_spec (firstIn + i) (3072 * (k + 1))); try reflexivity; try lia. symmetry. apply sampleAt_out. lia.
Qed.
Lemma gatherFrames_ok : forall firstIn inCount ch cnt a fs r, 0 <= cnt -> 0 <= a -> AFS * (a + cnt - 1) < N -> 0 <= inCount ->
  Forall2 (fun f x => holds N s f x) (map (fun k => a + k) (zseq cnt)) fs -> upTo firstIn inCount ch (AFS * a) r ->
  exists r', gatherFrames load firstIn inCount ch (a * AFS) fs r = Ok r' /\ upTo firstIn inCount ch (AFS * (a + cnt)) r'.
Proof.
  intros firstIn inCount ch cnt a fs r C. revert a fs r. pattern cnt. apply natlike_ind; [|clear cnt C|exact C].
  - intros a fs r A L I F U. change (zseq 0) with (@nil Z) in F. inversion F; subst. exists r. split; [reflexivity|]. replace (a + 0) with a by lia. exact U.
  - intros cnt C IH a fs r A L I F U. unfold Z.succ in *. assert (AB : AFS = 3072) by reflexivity. rewrite zseq_cons in F by lia. cbn [map] in F. inversion F as [|f0 x0 l0 fs0 H0 F0]; subst. cbn [gatherFrames].
    replace (a + 0) with a in H0 by lia. destruct (gatherFrame_ok firstIn inCount ch a x0 r) as (r1 & E1 & U1); try assumption; try lia. rewrite E1. cbn [obind].
    replace (a * AFS + AFS) with ((a + 1) * AFS) by lia. destruct (IH (a + 1) fs0 r1) as (r' & E & U'); try assumption; try lia.
    + rewrite map_map in F0. replace (cnt + 1 - 1) with cnt in F0 by lia. erewrite map_ext; [exact F0|]. intros k. cbv beta. lia.
    + exists r'. split; [exact E|]. replace (a + (cnt + 1)) with (a + 1 + cnt) by lia. exact U'.
Qed.
Lemma gatherChannel_ok : forall n r ch fs, goodRange n r -> let inCount := rg_lastIn r - rg_firstIn r + 1 in
  Forall2 (fun f x => holds N s f x) (frameList (frameRange (c_frames src) r)) fs ->
  exists row', gatherChannel load (rg_firstIn r) inCount (fst (frameRange (c_frames src) r)) fs ch = Ok row' /\ forall i, 0 <= i < inCount -> row' i = sampleAt load s N ch (rg_firstIn r + i).
Proof.
  intros n r ch fs G inCount F. destruct (frameRange_ok n r G) as (F1 & F2 & F3 & F4). pose proof (gr_in _ _ G) as GI. pose proof frames_bound as (FB & FN). unfold frameList in F. set (x := frameRange (c_frames src) r) in *.
  assert (AB : AFS = 3072) by reflexivity.
  destruct (gatherFrames_ok (rg_firstIn r) inCount ch (snd x - fst x + 1) (fst x) fs (fun _ => zero)) as (r' & E & U); try assumption; try (unfold inCount; lia).
  - intros i I. destruct (Z.ltb_spec (rg_firstIn r + i) (AFS * fst x)); [|reflexivity]. symmetry. apply sampleAt_out. right.
    rewrite AB in *. pose proof (Z.mul_div_le (rg_firstIn r) 3072 ltac:(lia)). lia.
  - exists r'. split; [exact E|]. intros i I. rewrite U by exact I. destruct (Z.ltb_spec (rg_firstIn r + i) (AFS * (fst x + (snd x - fst x + 1)))) as [A|A]; [reflexivity|]. symmetry. apply sampleAt_out. left.
    rewrite AB in *. pose proof (Z.mul_succ_div_gt (rg_lastIn r) 3072 ltac:(lia)). unfold inCount in I. lia.
Qed.

(** *** Mixing *)
Lemma mixRows_ok : forall n r fs, goodRange n r -> let inCount := rg_lastIn r - rg_firstIn r + 1 in
  Forall2 (fun f x => holds N s f x) (frameList (frameRange (c_frames src) r)) fs ->
  exists rows, mixRows load d (rg_firstIn r) inCount (fst (frameRange (c_frames src) r)) fs = Ok rows /\ forall oc i, 0 <= oc < pl_out d -> 0 <= i < inCount -> rows oc i = mixedAt oc (rg_firstIn r + i).
Proof.
  intros n r fs G inCount F. destruct PO as (PI & PQ & _). unfold mixRows, mixedAt. destruct (pl_mix d) as [w|].
  - apply (forZ_inv (fun ic rows => forall oc i, 0 <= oc < pl_out d -> 0 <= i < inCount -> rows oc i = mixAt load s N w ic oc (rg_firstIn r + i))); [exact PI|intros; reflexivity|].
    intros ic rows IC P. destruct (gatherChannel_ok n r ic fs G F) as (sc & E & V). fold inCount in E, V. rewrite E. cbn [obind].
    destruct (forZ_inv (fun k rows' => forall oc i, 0 <= oc < pl_out d -> 0 <= i < inCount -> rows' oc i = mixAt load s N w (if oc <? k then ic + 1 else ic) oc (rg_firstIn r + i))
      (fun oc rows => if SFeqb (w oc ic) zero then Ok rows else Ok (fun o => if o =? oc then (fun i => add32 (rows o i) (mul32 (w oc ic) (sc i))) else rows o)) (pl_out d) rows) as (rows' & E' & P').
    + exact PQ.
    + intros oc i O I. destruct (Z.ltb_spec oc 0); [lia|]. apply P; assumption.
    + intros k t K T.
      assert (ST : forall i, mixAt load s N w (ic + 1) k i = if SFeqb (w k ic) zero then mixAt load s N w ic k i else add32 (mixAt load s N w ic k i) (mul32 (w k ic) (sampleAt load s N ic i))) by (intros i; unfold mixAt; rewrite zseq_succ by lia; rewrite fold_left_app; reflexivity).
      assert (KK : forall i, 0 <= i < inCount -> t k i = mixAt load s N w ic k (rg_firstIn r + i)) by (intros i I; rewrite T by assumption; rewrite Z.ltb_irrefl; reflexivity).
      destruct (SFeqb (w k ic) zero) eqn:W; eexists; (split; [reflexivity|]); intros oc i O I; cbv beta.
      * destruct (Z.eq_dec oc k) as [->|NK]; [destruct (Z.ltb_spec k (k + 1)); [|lia]; rewrite KK, ST by exact I; reflexivity|]. rewrite T by assumption. destruct (Z.ltb_spec oc k); destruct (Z.ltb_spec oc (k + 1)); try lia; reflexivity.
      * destruct (Z.eqb_spec oc k) as [->|NK]; [destruct (Z.ltb_spec k (k + 1)); [|lia]; rewrite KK, ST, V by exact I; reflexivity|]. rewrite T by assumption. destruct (Z.ltb_spec oc k); destruct (Z.ltb_spec oc (k + 1)); try lia; reflexivity.
    + exists rows'. split; [exact E'|]. intros oc i O I. rewrite P' by assumption. destruct (Z.ltb_spec oc (pl_out d)); [reflexivity|lia].
  - destruct (forZ_inv (fun k rows => forall oc i, 0 <= oc < k -> 0 <= i < inCount -> rows oc i = sampleAt load s N oc (rg_firstIn r + i))
      (fun oc rows => obind (gatherChannel load (rg_firstIn r) inCount (fst (frameRange (c_frames src) r)) fs oc) (fun r => Ok (fun o => if o =? oc then r else rows o))) (pl_out d) (fun _ _ => zero)) as (rows & E & P).
    + exact PQ.
    + intros; lia.
    + intros k t K T. destruct (gatherChannel_ok n r k fs G F) as (sc & E & V). fold inCount in E, V. rewrite E. cbn [obind]. eexists. split; [reflexivity|]. intros oc i O I. cbv beta. destruct (Z.eqb_spec oc k) as [->|NK]; [apply V; exact I|]. apply T; [lia|exact I].
    + exists rows. split; [exact E|]. intros; apply P; assumption.
Qed.

(** *** Filtering *)
Lemma advance_ok : pl_doResample d = true -> forall m, 0 <= m -> let b := pl_bank d in
  advance d (whole (bk_p b) (bk_q b) m, phaseOf (bk_p b) (bk_q b) m) = (whole (bk_p b) (bk_q b) (m + 1), phaseOf (bk_p b) (bk_q b) (m + 1)).
Proof.
  intros DR m M. cbv zeta. destruct PO as (_ & _ & _ & R). rewrite DR in R. cbv zeta in R. destruct R as (P & Q & _ & _ & _ & EB & EP & _). unfold advance, whole, phaseOf. cbn [fst snd]. rewrite EB, EP. set (p := bk_p (pl_bank d)) in *. set (q := bk_q (pl_bank d)) in *.
  pose proof (Z.div_mod (m * q) p ltac:(lia)) as D1. pose proof (Z.mod_pos_bound (m * q) p ltac:(lia)) as B1. pose proof (Z.div_mod q p ltac:(lia)) as D2. pose proof (Z.mod_pos_bound q p ltac:(lia)) as B2.
  set (a := m * q / p) in *. set (b := (m * q) mod p) in *. set (c := q / p) in *. set (e := q mod p) in *. clearbody a b c e.
  assert (E : (m + 1) * q = p * (a + c) + (b + e)) by (replace ((m + 1) * q) with (m * q + q) by ring; lia).
  destruct (Z.leb_spec p (b + e)); f_equal.
  - apply Z.div_unique with (b + e - p); [lia|]. rewrite E. ring.
  - apply Z.mod_unique with (a + c + 1); [lia|]. rewrite E. ring.
  - apply Z.div_unique with (b + e); [lia|]. exact E.
  - apply Z.mod_unique with (a + c); [lia|]. exact E.
Qed.
Lemma filterRow_ok : forall n r mixed oc, pl_doResample d = true -> goodRange n r -> let inCount := rg_lastIn r - rg_firstIn r + 1 in
  (forall i, 0 <= i < inCount -> mixed i = mixedAt oc (rg_firstIn r + i)) ->
  exists out, filterRow coeff d mixed inCount r = Ok out /\ forall i, 0 <= i < rg_outCount r -> out i = valueAt oc (rg_firstOut r + i).
Proof.
  intros n r mixed oc DR G inCount MX. pose proof (advance_ok DR) as ADV. destruct PO as (_ & _ & _ & R). rewrite DR in R. cbv zeta in R. destruct R as (P & Q & _ & H & TP & _ & _ & _). unfold filterRow, valueAt. rewrite DR. cbv zeta in ADV.
  pose proof (gr_res _ _ G) as GR. rewrite DR in GR. cbv zeta in GR. destruct GR as (G1 & G2 & G3 & G4). pose proof (gr_first _ _ G) as GF. pose proof (gr_pos _ _ G) as GP. pose proof (gr_n _ _ G) as GN. rewrite TP. set (p := bk_p (pl_bank d)) in *. set (q := bk_q (pl_bank d)) in *. set (h := bk_half (pl_bank d)) in *.
  rewrite <- GF in G1, G2, G4. set (F := rg_firstOut r) in *. assert (F0 : 0 <= F) by (rewrite GF; change AFS with 3072; lia).
  assert (WM : forall x y, x <= y -> whole p q x <= whole p q y) by (intros x y XY; unfold whole; apply Z.div_le_mono; [lia|]; apply Z.mul_le_mono_nonneg_r; lia).
  match goal with |- exists out, obind (forZ ?n ?f ?s0) _ = _ /\ _ => destruct (forZ_inv (fun m st => fst st = (whole p q (F + m), phaseOf p q (F + m)) /\ forall i, 0 <= i < m -> snd st i = filterAt coeff h p q (mixedAt oc) (F + i)) f n s0) as (st & E & _ & ST) end.
  - lia.
  - cbn [fst snd]. split; [|intros; lia]. rewrite G1, G2. replace (F + 0) with F by lia. reflexivity.
  - intros m ((base, phase), out) M (E1 & E2). cbn [fst snd] in E1, E2. assert (EB : base = whole p q (F + m)) by congruence. assert (EP : phase = phaseOf p q (F + m)) by congruence.
    pose proof (WM F (F + m) ltac:(lia)) as W1. pose proof (WM (F + m) (F + rg_outCount r - 1) ltac:(lia)) as W2.
    assert (PB : 0 <= phase < p) by (rewrite EP; unfold phaseOf; apply Z.mod_pos_bound; lia).
    destruct (forZ_inv (fun j acc => acc = fold_left (fun acc j => add64 acc (mul64 (mixedAt oc (whole p q (F + m) - h + 1 + j)) (coeff (phaseOf p q (F + m)) j))) (zseq j) zero) (tap coeff d mixed inCount base phase (rg_firstIn r)) (2 * h) zero) as (acc & EA & VA).
    + lia.
    + reflexivity.
    + intros j t J T. unfold tap. rewrite TP. fold p q h.
      assert (I : 0 <= base - h + 1 - rg_firstIn r + j < inCount) by (unfold inCount; lia).
      assert (C : 0 <= phase * (2 * h) + j < p * (2 * h)). { split; [apply Z.add_nonneg_nonneg; [apply Z.mul_nonneg_nonneg|]; lia|]. assert ((phase + 1) * (2 * h) <= p * (2 * h)) by (apply Z.mul_le_mono_nonneg_r; lia). lia. }
      destruct (Z.leb_spec 0 (base - h + 1 - rg_firstIn r + j)); [|lia]. destruct (Z.ltb_spec (base - h + 1 - rg_firstIn r + j) inCount); [|lia]. destruct (Z.leb_spec 0 (phase * (2 * h) + j)); [|lia]. destruct (Z.ltb_spec (phase * (2 * h) + j) (p * (2 * h))); [|lia]. cbn [andb].
      eexists. split; [reflexivity|]. rewrite zseq_succ by lia. rewrite fold_left_app. cbn [fold_left]. rewrite <- T.
      replace ((phase * (2 * h) + j) / (2 * h)) with phase by (apply Z.div_unique with j; lia). replace ((phase * (2 * h) + j) mod (2 * h)) with j by (apply Z.mod_unique with phase; lia).
      rewrite MX by exact I. rewrite <- EP, <- EB. do 3 f_equal. lia.
    + rewrite EA. cbn [obind]. unfold setRow. destruct (Z.leb_spec 0 m); [|lia]. destruct (Z.ltb_spec m (rg_outCount r)); [|lia]. cbn [andb obind]. eexists. split; [reflexivity|]. cbn [fst snd]. split.
      * rewrite EB, EP. rewrite ADV by lia. f_equal; f_equal; lia.
      * intros i I. destruct (Z.eqb_spec i m) as [->|NM]; [|apply E2; lia]. unfold filterAt. rewrite VA. reflexivity.
  - match goal with |- exists out, obind ?X _ = _ /\ _ => replace X with (Ok st) by (symmetry; exact E) end. cbn [obind]. eexists. split; [reflexivity|]. exact ST.
Qed.

(** *** The frame *)
Lemma channelOut_ok : forall n r rows oc, goodRange n r -> let inCount := rg_lastIn r - rg_firstIn r + 1 in 0 <= oc < pl_out d ->
  (forall i, 0 <= i < inCount -> rows oc i = mixedAt oc (rg_firstIn r + i)) ->
  channelOut store coeff d silence rows inCount r oc = storedChannel store valueAt (pl_silent d) silence (AFS * n) (Z.min AFS (pl_len d - AFS * n)) oc.
Proof.
  intros n r rows oc G inCount OC MX. unfold channelOut, storedChannel. pose proof (gr_first _ _ G) as GF. pose proof (gr_count _ _ G) as GC. rewrite <- GC. destruct (pl_silent d oc); [reflexivity|].
  assert (Q : exists qs, (if pl_doResample d then filterRow coeff d (rows oc) inCount r else Ok (rows oc)) = Ok qs /\ negb (pl_doResample d) && (inCount <? rg_outCount r) = false /\ forall i, 0 <= i < rg_outCount r -> qs i = valueAt oc (rg_firstOut r + i)).
  { destruct (pl_doResample d) eqn:DR.
    - destruct (filterRow_ok n r (rows oc) oc DR G MX) as (out & E & V). exists out. split; [exact E|]. split; [reflexivity|exact V].
    - pose proof (gr_res _ _ G) as GR. rewrite DR in GR. destruct GR as (G1 & G2). exists (rows oc). split; [reflexivity|]. assert (IC : inCount = rg_outCount r) by (unfold inCount; lia). rewrite IC, Z.ltb_irrefl. split; [reflexivity|]. intros i I. rewrite MX by lia. unfold valueAt. rewrite DR. f_equal. lia. }
  destruct Q as (qs & E & B & V). match goal with |- obind ?X _ = _ => replace X with (Ok qs) by (symmetry; exact E) end. cbn [obind]. rewrite B. f_equal. apply inOrder_ext. intros i I. apply In_zseq in I. rewrite V by exact I. rewrite GF. reflexivity.
Qed.
Theorem frame_ok : forall n, 0 <= n -> AFS * n < pl_len d ->
  resampleFrame load store coeff d silence src n = storedFrame store valueAt (pl_silent d) silence (pl_out d) (pl_len d) (pl_overflowError d) n.
Proof.
  intros n N0 NL. destruct (range_ok n N0 NL) as (r & E & G). destruct (resampleRequests_ok n r E G) as (RQ & IN & _). unfold resampleFrame. rewrite RQ. cbn [obind].
  rewrite requests_ok. 2:{ intros i k I. apply in_map_iff in I. destruct I as (f & EF & I). assert (i = O /\ k = f) as (-> & ->) by (split; congruence). exists src. split; [reflexivity|]. apply IN. exact I. }
  cbn [obind]. unfold resampleReady. rewrite E. cbn [obind].
  destruct (getAll_ok (map (fun f => (O, f)) (frameList (frameRange (c_frames src) r))) (frameList (frameRange (c_frames src) r))) as (fs & EG & FA). { intros f I. split; [apply IN; exact I|]. apply in_map_iff. exists f. split; [reflexivity|exact I]. }
  rewrite EG. cbn [obind]. pose proof (gr_pos _ _ G) as GP. destruct (Z.leb_spec (rg_outCount r) 0); [lia|]. pose proof (gr_in _ _ G) as GI. rewrite wrap_small by lia. destruct (Z.ltb_spec (rg_lastIn r - rg_firstIn r + 1) 0); [lia|].
  destruct (mixRows_ok n r fs G FA) as (rows & EM & VM). cbv zeta in EM, VM. rewrite EM. cbn [obind]. unfold storedFrame. f_equal. apply inOrder_ext. intros oc O. apply In_zseq in O. apply channelOut_ok; [exact G|exact O|]. intros i I. apply VM; assumption.
Qed.
(** The frames asked for. *)
Theorem requests_near : forall n, 0 <= n -> AFS * n < pl_len d -> exists l, resampleRequests d (c_frames src) n = Ok (map (fun f => (O, f)) l) /\ l <> [] /\ NoDup l /\ forall f, In f l -> 0 <= f < c_frames src.
Proof.
  intros n N0 NL. destruct (range_ok n N0 NL) as (r & E & G). destruct (resampleRequests_ok n r E G) as (RQ & IN & NE). exists (frameList (frameRange (c_frames src) r)). split; [exact RQ|]. split; [exact NE|]. split; [|exact IN].
  unfold frameList. apply Injective_map_NoDup; [intros a b; lia|]. unfold zseq. apply Injective_map_NoDup; [intros a b; lia|apply seq_NoDup].
Qed.
End Frames.
