(** Facts about memory admission control. *)
From Coq Require Import ZArith List Bool Lia Permutation Sorted.
From Verif Require Import Common Admission AdmissionSpec.
Import ListNotations.
Open Scope Z_scope.

(** ---- Measuring ---- *)

Lemma sumZ_app : forall a b, sumZ (a ++ b) = sumZ a + sumZ b.
Proof. induction a; intros; simpl; [lia|rewrite IHa; lia]. Qed.

Lemma firstn_0 : forall A (l : list A), firstn 0 l = [].
Proof. reflexivity. Qed.

Lemma highWater_nonneg : forall l m, highWater l m -> 0 <= m.
Proof. intros l m [_ H]. specialize (H 0%nat). simpl in H. exact H. Qed.

Lemma highWater_fun : forall l m m', highWater l m -> highWater l m' -> m = m'.
Proof.
  intros l m m' [[k E] H] [[k' E'] H'].
  pose proof (H k'). pose proof (H' k). lia.
Qed.

Lemma highWater_nil : highWater [] 0.
Proof.
  split; [exists 0%nat; reflexivity|]. intros k. rewrite firstn_nil. simpl. lia.
Qed.

Lemma highWater_cons : forall x l m, highWater l m -> highWater (x :: l) (Z.max 0 (x + m)).
Proof.
  intros x l m [[k E] H]. split.
  - destruct (Z.max_spec 0 (x + m)) as [[_ ->] | [_ ->]].
    + exists (S k). simpl. lia.
    + exists 0%nat. reflexivity.
  - intros [|j]; simpl; [lia|]. specialize (H j). lia.
Qed.

Lemma highWater_app : forall a b m n, highWater a m -> highWater b n -> highWater (a ++ b) (Z.max m (sumZ a + n)).
Proof.
  induction a as [|x a IH]; intros b m n Ha Hb.
  - pose proof (highWater_fun _ _ _ Ha highWater_nil). subst.
    pose proof (highWater_nonneg _ _ Hb). simpl.
    replace (Z.max 0 n) with n by lia. exact Hb.
  - assert (exists m', highWater a m') as [m' Hm'].
    { clear. induction a as [|y a [m H]]; [exists 0; apply highWater_nil|].
      eexists. apply highWater_cons. exact H. }
    pose proof (highWater_fun _ _ _ Ha (highWater_cons x a m' Hm')) as ->.
    specialize (IH b m' n Hm' Hb).
    apply (highWater_cons x) in IH. simpl.
    match goal with |- highWater _ ?g => match type of IH with highWater _ ?h => replace g with h by lia end end.
    exact IH.
Qed.

Definition trkOk (s : trk) : Prop := t_delta s <= t_peak s.

Lemma trackAlloc_eq : forall s n, trackAlloc s n = mkTrk (t_delta s + n) (Z.max (t_peak s) (t_delta s + n)).
Proof.
  intros. unfold trackAlloc. f_equal. destruct (Z.ltb_spec (t_peak s) (t_delta s + n)); lia.
Qed.

Lemma run_prog : forall p s, trkOk s -> sizesOk p ->
  exists m, highWater (deltas p) m /\
    t_delta (fst (runProg p s)) = t_delta s + sumZ (deltas p) /\
    t_peak (fst (runProg p s)) = Z.max (t_peak s) (t_delta s + m) /\
    Forall2 (fun b x => highWater (deltas b) x) (callsOf p) (snd (runProg p s)).
Proof.
  unfold trkOk.
  induction p as [|n k IH|n k IH|b IHb k IHk]; intros s Hs Hz; simpl in Hz.
  - exists 0. simpl. split; [apply highWater_nil|]. split; [lia|]. split; [lia|]. apply Forall2_nil.
  - destruct Hz as [Hn Hz]. cbn [runProg deltas callsOf].
    destruct (IH (trackAlloc s n)) as (m & Hm & Hd & Hp & Hc);
      [rewrite trackAlloc_eq; simpl; lia|exact Hz|].
    exists (Z.max 0 (n + m)). rewrite trackAlloc_eq in Hd, Hp. simpl in Hd, Hp.
    pose proof (highWater_nonneg _ _ Hm).
    split; [apply highWater_cons; exact Hm|]. rewrite trackAlloc_eq in *.
    simpl sumZ. repeat split; [lia|lia|exact Hc].
  - destruct Hz as [Hn Hz]. cbn [runProg deltas callsOf].
    destruct (IH (trackFree s n)) as (m & Hm & Hd & Hp & Hc);
      [unfold trackFree; simpl; lia|exact Hz|].
    exists (Z.max 0 (- n + m)). simpl in Hd, Hp.
    pose proof (highWater_nonneg _ _ Hm).
    split; [apply highWater_cons; exact Hm|].
    simpl sumZ. repeat split; [lia|lia|exact Hc].
  - destruct Hz as [Hb Hk]. cbn [runProg deltas callsOf]. unfold beginCall.
    destruct (IHb (mkTrk 0 0)) as (mb & Hmb & Hdb & Hpb & Hcb); [simpl; lia|exact Hb|].
    destruct (runProg b (mkTrk 0 0)) as [s1 inner] eqn:E1. cbn [fst snd] in *. simpl in Hdb, Hpb.
    destruct (endCall s s1) as [s2 peak] eqn:E2. unfold endCall in E2. injection E2 as <- <-.
    pose proof (highWater_nonneg _ _ Hmb).
    match goal with |- context [runProg k ?x] => set (s2 := x) end.
    assert (E : s2 = mkTrk (t_delta s + sumZ (deltas b)) (Z.max (t_peak s) (t_delta s + mb))).
    { unfold s2. f_equal; [lia|]. destruct (Z.ltb_spec (t_peak s) (t_delta s + t_peak s1)); lia. }
    clearbody s2. subst s2.
    assert (sumZ (deltas b) <= mb) as Hle.
    { destruct Hmb as [_ H1]. specialize (H1 (length (deltas b))). rewrite firstn_all in H1. exact H1. }
    match goal with |- context [runProg k ?x] => destruct (IHk x) as (mk & Hmk & Hdk & Hpk & Hck) end;
      [simpl; lia|exact Hk|].
    match goal with |- context [runProg k ?x] => destruct (runProg k x) as [s3 rest] eqn:E3 end.
    cbn [fst snd] in *. simpl in Hdk, Hpk.
    exists (Z.max mb (sumZ (deltas b) + mk)).
    pose proof (highWater_nonneg _ _ Hmk).
    split; [apply highWater_app; assumption|].
    rewrite sumZ_app. repeat split; [lia|lia|].
    apply Forall2_app; [exact Hcb|]. apply Forall2_cons; [|exact Hck].
    rewrite Hpb. replace (Z.max 0 mb) with mb by lia. exact Hmb.
Qed.

Lemma measure_right : forall p s, trkOk s -> sizesOk p ->
  Forall2 (fun b x => highWater (deltas b) x) (callsOf p) (snd (runProg p s)).
Proof. intros p s H1 H2. destruct (run_prog p s H1 H2) as (m & _ & _ & _ & H). exact H. Qed.

(** The same allocations and frees without the calls. *)
Fixpoint plain (l : list Z) : prog :=
  match l with [] => PDone | x :: l => if 0 <=? x then PAlloc x (plain l) else PFree (- x) (plain l) end.
Lemma plain_deltas : forall l, deltas (plain l) = l.
Proof.
  induction l as [|x l IH]; [reflexivity|]. simpl.
  destruct (0 <=? x); simpl; rewrite IH; f_equal; lia.
Qed.
Lemma plain_sizes : forall l, sizesOk (plain l).
Proof.
  induction l as [|x l IH]; [exact I|]. simpl.
  destruct (Z.leb_spec 0 x); simpl; split; try assumption; lia.
Qed.

Lemma measure_transparent : forall p s, trkOk s -> sizesOk p ->
  fst (runProg p s) = fst (runProg (plain (deltas p)) s).
Proof.
  intros p s H1 H2.
  destruct (run_prog p s H1 H2) as (m & Hm & Hd & Hp & _).
  destruct (run_prog (plain (deltas p)) s H1 (plain_sizes _)) as (m' & Hm' & Hd' & Hp' & _).
  rewrite plain_deltas in *. pose proof (highWater_fun _ _ _ Hm Hm'). subst m'.
  destruct (fst (runProg p s)), (fst (runProg (plain (deltas p)) s)). simpl in *. f_equal; lia.
Qed.

(** ---- The estimate ---- *)

Lemma shift7 : forall x, Z.shiftr x 7 = x / 128.
Proof. intros. rewrite Z.shiftr_div_pow2 by lia. reflexivity. Qed.

Lemma decay_mono : forall x y, x <= y -> x - x / 128 <= y - y / 128.
Proof. intros. Z.to_euclidean_division_equations. lia. Qed.

Lemma aged_mono : forall k x y, x <= y -> aged k x <= aged k y.
Proof. induction k; intros; simpl; [lia|]. apply IHk. apply decay_mono. exact H. Qed.

Lemma aged_S : forall k x, aged (S k) x = aged k x - aged k x / 128.
Proof. induction k; intros; [reflexivity|]. change (aged (S (S k)) x) with (aged (S k) (x - x / 128)). rewrite IHk. reflexivity. Qed.

Lemma aged_range : forall k x, 0 <= x -> 0 <= aged k x <= x.
Proof.
  induction k; intros; [simpl; lia|]. rewrite aged_S. specialize (IHk x H).
  Z.to_euclidean_division_equations. lia.
Qed.

Lemma est_snoc : forall l x, estAfter (l ++ [x]) = updateEst (estAfter l) x.
Proof. intros. unfold estAfter. rewrite fold_left_app. reflexivity. Qed.

Lemma estimate_exact : forall l, l <> [] -> Forall (fun x => 0 <= x) l -> isEstimate l (estAfter l) /\ 0 <= estAfter l.
Proof.
  induction l as [|x l IH] using rev_ind; intros Hne HF; [congruence|].
  apply Forall_app in HF. destruct HF as [HF Hx]. inversion Hx; subst.
  rewrite est_snoc. destruct l as [|y l'].
  - simpl. unfold updateEst, estAfter. simpl. split; [|lia]. split.
    + exists 0%nat, x. split; reflexivity.
    + intros [|i] s E; simpl in E; [injection E as ->; simpl; lia|destruct i; discriminate].
  - destruct IH as [[(i & s & E & He) Hall] Hn]; [discriminate|exact HF|].
    remember (y :: l') as l eqn:El.
    assert (Hlen : (0 < length l)%nat) by (subst; simpl; lia). clear El.
    unfold updateEst. destruct (Z.leb_spec 0 (estAfter l)); [|lia].
    rewrite shift7.
    split; [|lia]. unfold isEstimate. rewrite app_length. cbn [length]. split.
    + destruct (Z.max_spec x (estAfter l - estAfter l / 128)) as [[_ ->] | [_ ->]].
      * exists i, s. assert (i < length l)%nat by (apply nth_error_Some; congruence).
        split; [rewrite nth_error_app1 by lia; exact E|].
        replace (length l + 1 - 1 - i)%nat with (S (length l - 1 - i)) by lia.
        rewrite aged_S, <- He. reflexivity.
      * exists (length l), x. split; [rewrite nth_error_app2 by lia; rewrite Nat.sub_diag; reflexivity|].
        replace (length l + 1 - 1 - length l)%nat with 0%nat by lia. reflexivity.
    + intros j t Ej. destruct (Nat.ltb_spec j (length l)).
      * rewrite nth_error_app1 in Ej by lia. specialize (Hall j t Ej).
        replace (length l + 1 - 1 - j)%nat with (S (length l - 1 - j)) by lia.
        rewrite aged_S. pose proof (decay_mono _ _ Hall). lia.
      * assert (j = length l).
        { assert (j < length (l ++ [x]))%nat by (apply nth_error_Some; congruence). rewrite app_length in *. simpl in *. lia. }
        subst j. rewrite nth_error_app2, Nat.sub_diag in Ej by lia. injection Ej as ->.
        replace (length l + 1 - 1 - length l)%nat with 0%nat by lia. simpl. lia.
Qed.

Lemma estimate_is : forall l, l <> [] -> Forall (fun x => 0 <= x) l -> isEstimate l (estAfter l).
Proof. intros. apply estimate_exact; assumption. Qed.

(** After one more call the estimate covers that call and has lost at most a 128th; it is never
    more than the largest measurement. *)
Lemma estimate_step : forall l x, Forall (fun x => 0 <= x) (l ++ [x]) ->
  x <= estAfter (l ++ [x]) /\
  127 * estAfter l <= 128 * estAfter (l ++ [x]) /\
  (forall m, Forall (fun y => y <= m) (l ++ [x]) -> estAfter (l ++ [x]) <= m).
Proof.
  intros l x HF. rewrite est_snoc.
  pose proof HF as HF0. apply Forall_app in HF. destruct HF as [HF Hx]. inversion Hx; subst.
  split; [|split].
  - unfold updateEst. destruct (0 <=? estAfter l); lia.
  - unfold updateEst. rewrite shift7. destruct (Z.leb_spec 0 (estAfter l)).
    + Z.to_euclidean_division_equations. lia.
    + lia.
  - intros m Hm. rewrite <- est_snoc.
    destruct (estimate_exact (l ++ [x])) as [[(i & s & E & He) _] _]; [destruct l; discriminate|exact HF0|].
    rewrite He. apply nth_error_In in E. rewrite Forall_forall in Hm, HF0.
    pose proof (aged_range (length (l ++ [x]) - 1 - i) s (HF0 _ E)). specialize (Hm _ E). lia.
Qed.

Lemma aged_floor : forall k x, 0 <= x -> x <= 127 + Z.of_nat k -> aged k x <= 127.
Proof.
  induction k; intros x H0 H; [simpl; lia|]. simpl. apply IHk; [Z.to_euclidean_division_equations; lia|].
  destruct (Z.le_gt_cases 128 x); [Z.to_euclidean_division_equations; lia|].
  rewrite Z.div_small by lia. lia.
Qed.

(** Old peaks are forgotten: once enough calls have stayed below [c], so does the estimate, down
    to 127 bytes. *)
Lemma estimate_forgets : forall l l' c, Forall (fun x => 0 <= x) (l ++ l') -> l ++ l' <> [] ->
  Forall (fun x => x <= c) l' -> Forall (fun x => x <= Z.of_nat (length l')) l ->
  estAfter (l ++ l') <= Z.max c 127.
Proof.
  intros l l' c HF Hne Hc Hl.
  destruct (estimate_exact (l ++ l') Hne HF) as [[(i & s & E & He) _] _].
  rewrite He. rewrite Forall_forall in HF. pose proof (HF _ (nth_error_In _ _ E)) as Hs. simpl in Hs.
  assert (Hi : (i < length (l ++ l'))%nat) by (apply nth_error_Some; congruence).
  rewrite app_length in *. destruct (Nat.ltb_spec i (length l)).
  - rewrite nth_error_app1 in E by lia. apply nth_error_In in E.
    rewrite Forall_forall in Hl. specialize (Hl _ E). simpl in Hl.
    pose proof (aged_floor (length l + length l' - 1 - i) s Hs). lia.
  - rewrite nth_error_app2 in E by lia. apply nth_error_In in E.
    rewrite Forall_forall in Hc. specialize (Hc _ E). simpl in Hc.
    pose proof (aged_range (length l + length l' - 1 - i) s Hs). lia.
Qed.

(** ---- The first estimate ---- *)

Lemma i64_ok : forall x, 0 <= x < 2 ^ 63 -> i64 x = Ok x.
Proof.
  intros. unfold i64. destruct (Z.leb_spec (- 2 ^ 63) x); [|lia].
  destruct (Z.ltb_spec x (2 ^ 63)); [reflexivity|lia].
Qed.

Lemma plane_bytes : forall n w h ssw ssh bps acc, 0 <= w -> 0 <= h -> 0 <= ssw -> 0 <= ssh -> 1 <= bps <= 4 ->
  0 <= acc -> acc + Z.of_nat n * (w * h * bps) < 2 ^ 63 ->
  planeBytes w h ssw ssh bps false n acc = Ok (acc + Z.of_nat n * ((w / 2 ^ ssw) * (h / 2 ^ ssh) * bps)).
Proof.
  induction n as [|n IH]; intros w h ssw ssh bps acc Hw Hh Hsw Hsh Hb Ha Hlt.
  - simpl. f_equal. lia.
  - cbn [planeBytes]. rewrite !Z.shiftr_div_pow2 by lia.
    rewrite Nat2Z.inj_succ in *.
    assert (Hpw : 0 <= w / 2 ^ ssw <= w).
    { split; [apply Z.div_pos; lia|]. apply Z.div_le_upper_bound; [lia|]. nia. }
    assert (Hph : 0 <= h / 2 ^ ssh <= h).
    { split; [apply Z.div_pos; lia|]. apply Z.div_le_upper_bound; [lia|]. nia. }
    remember (w / 2 ^ ssw) as pw eqn:Epw. remember (h / 2 ^ ssh) as ph eqn:Eph.
    assert (Hp : 0 <= pw * ph <= w * h) by nia.
    assert (Hq : 0 <= pw * ph * bps <= w * h * bps) by nia.
    assert (Hn : 0 <= Z.of_nat n * (w * h * bps)) by nia.
    rewrite i64_ok by nia. cbn [obind]. rewrite i64_ok by nia. cbn [obind].
    rewrite i64_ok by nia. cbn [obind].
    rewrite IH by nia. rewrite <- Epw, <- Eph. f_equal. nia.
Qed.

Lemma expected_first : forall m, mediaOk m -> 6 * (match m with MVideo w h _ _ bps _ => w * h * bps | MAudio _ _ => 0 end) < 2 ^ 63 ->
  expected (-1) m = Ok (2 * frameBytes m).
Proof.
  intros [w h ssw ssh bps planes|bps channels] Hm Hlt; unfold expected; cbn [Z.leb Z.compare].
  - destruct Hm as (Hw & Hh & Hz & Hsw & Hsh & Hb & Hp). unfold frameBytes.
    destruct (Z.ltb_spec 0 w); cbn [andb].
    + destruct (Z.ltb_spec 0 h); [|lia]. cbn [obind].
      destruct planes as [|n]; [reflexivity|]. cbn [planeBytes].
      rewrite !Z.shiftr_0_r.
      assert (Hwh : 0 <= w * h) by nia.
      assert (Hq : 0 <= w * h * bps) by nia.
      rewrite i64_ok by nia. cbn [obind]. rewrite i64_ok by nia. cbn [obind].
      rewrite i64_ok by nia. cbn [obind]. rewrite Z.add_0_l.
      assert (Hn : 0 <= Z.of_nat n <= 2) by lia.
      rewrite plane_bytes by nia. cbn [obind].
      apply i64_ok.
      assert (Hpw : 0 <= w / 2 ^ ssw <= w).
      { split; [apply Z.div_pos; lia|]. apply Z.div_le_upper_bound; [lia|]. nia. }
      assert (Hph : 0 <= h / 2 ^ ssh <= h).
      { split; [apply Z.div_pos; lia|]. apply Z.div_le_upper_bound; [lia|]. nia. }
      remember (w / 2 ^ ssw) as pw. remember (h / 2 ^ ssh) as ph.
      assert (0 <= pw * ph <= w * h) by nia.
      assert (0 <= pw * ph * bps <= w * h * bps) by nia.
      nia.
    + assert (w = 0) by lia. assert (h = 0) by (apply Hz; assumption). subst.
      cbn [obind]. rewrite i64_ok by lia. f_equal. destruct planes; [reflexivity|].
      rewrite Z.div_0_l by lia. lia.
  - destruct Hm as [Hb Hc]. unfold frameBytes, audioSamples. rewrite i64_ok by nia. cbn [obind].
    apply i64_ok. nia.
Qed.

Lemma expected_later : forall est m, 0 <= est -> expected est m = Ok est.
Proof. intros. unfold expected. destruct (Z.leb_spec 0 est); [reflexivity|lia]. Qed.

Lemma expected_overflows : exists m, mediaOk m /\ expected (-1) m = UB.
Proof.
  exists (MVideo (2 ^ 31 - 1) (2 ^ 31 - 1) 0 0 4 1). split; [|vm_compute; reflexivity].
  unfold mediaOk. repeat split; lia.
Qed.

(** ---- The pool ---- *)

Lemma upd_length : forall A i f (l : list A), length (upd i f l) = length l.
Proof. intros A i f l. revert i. induction l; intros [|i]; simpl; auto. Qed.
Lemma upd_map : forall A B i f (g : A -> B) l, (forall x, g (f x) = g x) -> map g (upd i f l) = map g l.
Proof. intros A B i f g l H. revert i. induction l; intros [|i]; simpl; rewrite ?H, ?IHl; auto. Qed.
Lemma upd_sum : forall i n l c, nth_error l i = Some c ->
  sumZ (map c_use (upd i (fun c => mkCall (c_exp c) (c_use c + n)) l)) = sumZ (map c_use l) + n.
Proof.
  intros i n l. revert i. induction l; intros [|i] c E; simpl in *; try discriminate.
  - lia.
  - rewrite (IHl _ _ E). lia.
Qed.
Lemma del_sum : forall (g : call -> Z) i l c, nth_error l i = Some c ->
  sumZ (map g (del i l)) = sumZ (map g l) - g c.
Proof.
  intros g i l. revert i. induction l; intros [|i] c E; simpl in *; try discriminate.
  - injection E as ->. lia.
  - rewrite (IHl _ _ E). lia.
Qed.
Lemma del_length : forall A i (l : list A) c, nth_error l i = Some c -> S (length (del i l)) = length l.
Proof.
  intros A i l. revert i. induction l; intros [|i] c E; simpl in *; try discriminate; [reflexivity|].
  rewrite (IHl _ _ E). reflexivity.
Qed.
Lemma del_Forall : forall A (P : A -> Prop) i l, Forall P l -> Forall P (del i l).
Proof. intros A P i l H. revert i. induction H; intros [|i]; simpl; auto. Qed.
Lemma upd_Forall : forall A (P : A -> Prop) i f l, Forall P l -> (forall x, P x -> P (f x)) -> Forall P (upd i f l).
Proof. intros A P i f l H Hf. revert i. induction H; intros [|i]; simpl; constructor; auto. Qed.

Definition counted (s : pool) : Prop :=
  p_proc s = Z.of_nat (length (p_run s)) /\ p_inflight s = sumZ (map c_exp (p_run s)) /\
  Forall (fun c => 0 <= c_exp c) (p_run s).

Lemma step_counted : forall limit s ev s', pstep limit s ev = Some s' -> counted s -> counted s'.
Proof.
  intros limit s ev s' E (Hp & Hi & Hf). unfold counted. destruct ev as [e|i n|i n|n|i]; cbn [pstep] in E.
  - destruct (Z.ltb_spec e 0); [discriminate|].
    destruct (refuse limit s e); injection E as <-; [auto|]. cbn [p_proc p_run p_inflight map sumZ length c_exp].
    repeat split; [lia|lia|]. constructor; [cbn [c_exp]; lia|exact Hf].
  - destruct (nth_error (p_run s) i) eqn:En; [|discriminate].
    destruct (n <? 0); [discriminate|]. injection E as <-. cbn [p_proc p_run p_inflight].
    rewrite upd_length, upd_map by reflexivity. repeat split; auto.
    apply upd_Forall; [exact Hf|]. auto.
  - destruct (nth_error (p_run s) i) eqn:En; [|discriminate].
    destruct ((n <? 0) || (p_alloc s <? n)); [discriminate|]. injection E as <-. cbn [p_proc p_run p_inflight].
    rewrite upd_length, upd_map by reflexivity. repeat split; auto.
    apply upd_Forall; [exact Hf|]. auto.
  - destruct ((n <? 0) || (p_alloc s <? n)); [discriminate|]. injection E as <-. auto.
  - destruct (nth_error (p_run s) i) eqn:En; [|discriminate]. injection E as <-. cbn [p_proc p_run p_inflight].
    pose proof (del_length _ _ _ _ En). rewrite (del_sum _ _ _ _ En). repeat split; [lia|lia|].
    apply del_Forall. exact Hf.
Qed.

Lemma run_inv : forall (I : pool -> Prop) limit evs s s', I s ->
  (forall k s1 ev s2, prun limit (firstn k evs) s = Some s1 -> nth_error evs k = Some ev ->
     pstep limit s1 ev = Some s2 -> prun limit (firstn (S k) evs) s = Some s2 -> I s1 -> I s2) ->
  prun limit evs s = Some s' -> I s'.
Proof.
  intros I limit evs. induction evs as [|ev evs IH]; intros s s' H0 Hstep E.
  - injection E as <-. exact H0.
  - cbn [prun] in E. destruct (pstep limit s ev) as [s1|] eqn:E1; [|discriminate].
    apply (IH s1 s'); [|intros k s2 ev' s3 A B C D|exact E].
    + apply (Hstep 0%nat s ev s1); cbn; auto. rewrite E1. reflexivity.
    + apply (Hstep (S k) s2 ev' s3); cbn [firstn prun nth_error]; rewrite ?E1; auto.
Qed.

Lemma start_counted : forall a, counted (poolStart a).
Proof. intros. unfold counted, poolStart. simpl. repeat split; constructor. Qed.

Lemma run_counted : forall limit evs a s, prun limit evs (poolStart a) = Some s -> counted s.
Proof.
  intros limit evs a s E. apply (run_inv counted limit evs (poolStart a) s (start_counted a)); [|exact E].
  intros. eapply step_counted; eauto.
Qed.

Lemma firstn_run : forall limit evs k s s', prun limit evs s = Some s' ->
  exists s1, prun limit (firstn k evs) s = Some s1.
Proof.
  intros limit evs. induction evs as [|ev evs IH]; intros [|k] s s' E; cbn [firstn prun] in *; eauto.
  destruct (pstep limit s ev); [|discriminate]. eauto.
Qed.

(** The counters of the pool say what runs. *)
Lemma pool_counters : forall limit evs a s, prun limit evs (poolStart a) = Some s ->
  p_proc s = Z.of_nat (length (p_run s)) /\ p_inflight s = sumZ (map c_exp (p_run s)) /\ 0 <= p_inflight s /\
  (p_run s = [] -> p_inflight s = 0 /\ p_proc s = 0).
Proof.
  intros limit evs a s E. destruct (run_counted _ _ _ _ E) as (H1 & H2 & H3). repeat split; auto.
  - rewrite H2. clear - H3. induction H3; simpl; lia.
  - rewrite H2, H. reflexivity.
  - rewrite H1, H. reflexivity.
Qed.

(** Nothing is refused while nothing runs. *)
Lemma never_stuck : forall limit evs a s e, prun limit evs (poolStart a) = Some s ->
  refuse limit s e = true -> p_run s <> [] /\ limit + limit / 4 < p_alloc s + sumZ (map c_exp (p_run s)) + e.
Proof.
  intros limit evs a s e E H. destruct (run_counted _ _ _ _ E) as (H1 & H2 & H3).
  unfold refuse in H. rewrite !andb_true_iff, !Z.ltb_lt in H. destruct H as [[_ Hp] Hl].
  split; [intros En; rewrite En in H1; simpl in H1; lia|lia].
Qed.

Definition within (b d : Z) (s : pool) : Prop :=
  counted s /\ p_alloc s <= b + d /\
  (p_run s <> [] -> p_alloc s - sumZ (map c_use (p_run s)) + sumZ (map c_exp (p_run s)) <= b + d).

Lemma sum_le : forall l, Forall (fun c => c_use c <= c_exp c) l -> sumZ (map c_use l) <= sumZ (map c_exp l).
Proof. intros l H. induction H; simpl; lia. Qed.

Lemma upd_sum_free : forall i n l c, nth_error l i = Some c ->
  sumZ (map c_use (upd i (fun c => mkCall (c_exp c) (c_use c - n)) l)) = sumZ (map c_use l) - n.
Proof.
  intros i n l. revert i. induction l; intros [|i] c E; simpl in *; try discriminate.
  - lia.
  - rewrite (IHl _ _ E). lia.
Qed.

Lemma stays_within : forall b d limit evs a s,
  0 <= d -> limit + limit / 4 <= b -> a <= b ->
  predicted limit evs (poolStart a) -> ownAtLeast d limit evs (poolStart a) -> aloneFits b limit evs (poolStart a) ->
  prun limit evs (poolStart a) = Some s -> p_alloc s <= b + d.
Proof.
  intros b d limit evs a s Hd Hb Ha Hpred Hown Halone E.
  assert (W : within b d s); [|apply W].
  apply (run_inv (within b d) limit evs (poolStart a) s).
  - split; [apply start_counted|]. unfold poolStart; simpl. split; [lia|congruence].
  - intros k s1 ev s2 R1 Hev St R2 (C & A & B).
    pose proof (step_counted _ _ _ _ St C) as C2. destruct C as (Cp & Ci & Cf).
    pose proof (sum_le _ (Hpred _ _ R1)) as L1. pose proof (sum_le _ (Hpred _ _ R2)) as L2.
    pose proof (Hown _ _ R1) as O1.
    split; [exact C2|]. destruct ev as [e|i n|i n|n|i]; cbn [pstep] in St.
    + destruct (Z.ltb_spec e 0); [discriminate|].
      destruct (refuse limit s1 e) eqn:Er; injection St as <-; [split; assumption|].
      cbn [p_alloc p_run map sumZ c_use c_exp]. split; [exact A|]. intros _.
      destruct (p_run s1) as [|c0 r0] eqn:Er1.
      * pose proof (Halone _ _ _ R1 Hev Er1). simpl. lia.
      * unfold refuse in Er. rewrite Ci, Cp in Er.
        assert (0 < Z.of_nat (length (c0 :: r0))) as Hlen by (cbn [length]; lia).
        apply Z.ltb_lt in Hlen. rewrite Hlen in Er.
        destruct (Z.ltb_spec 0 e); cbn [andb] in Er.
        -- apply Z.ltb_ge in Er. lia.
        -- specialize (B ltac:(discriminate)). lia.
    + destruct (nth_error (p_run s1) i) eqn:En; [|discriminate].
      destruct (Z.ltb_spec n 0); [discriminate|]. injection St as <-. cbn [p_alloc p_run] in *.
      assert (p_run s1 <> []) by (intros H1; rewrite H1 in En; destruct i; discriminate).
      specialize (B H0). rewrite (upd_map _ _ i _ c_exp) in * by reflexivity.
      rewrite (upd_sum _ _ _ _ En) in *. split; [lia|intros _; lia].
    + destruct (nth_error (p_run s1) i) eqn:En; [|discriminate].
      destruct (Z.ltb_spec n 0); [discriminate|]. cbn [orb] in St.
      destruct (p_alloc s1 <? n); [discriminate|]. injection St as <-. cbn [p_alloc p_run] in *.
      assert (p_run s1 <> []) by (intros H1; rewrite H1 in En; destruct i; discriminate).
      specialize (B H0). rewrite (upd_map _ _ i _ c_exp) in * by reflexivity.
      rewrite (upd_sum_free _ _ _ _ En) in *. split; [lia|intros _; lia].
    + destruct (Z.ltb_spec n 0); [discriminate|]. cbn [orb] in St.
      destruct (p_alloc s1 <? n); [discriminate|]. injection St as <-. cbn [p_alloc p_run] in *.
      split; [lia|]. intros H1. specialize (B H1). lia.
    + destruct (nth_error (p_run s1) i) eqn:En; [|discriminate]. injection St as <-. cbn [p_alloc p_run] in *.
      assert (p_run s1 <> []) by (intros H1; rewrite H1 in En; destruct i; discriminate).
      specialize (B H). split; [exact A|]. intros _.
      rewrite !(del_sum _ _ _ _ En).
      pose proof (Hpred _ _ R1) as Hf. rewrite Forall_forall in Hf. pose proof (Hf _ (nth_error_In _ _ En)) as Hc. simpl in Hc. lia.
  - exact E.
Qed.

Lemma within_limit : forall b limit evs a s,
  limit + limit / 4 <= b -> a <= b ->
  predicted limit evs (poolStart a) -> ownAtLeast 0 limit evs (poolStart a) -> aloneFits b limit evs (poolStart a) ->
  prun limit evs (poolStart a) = Some s -> p_alloc s <= b.
Proof. intros. rewrite <- (Z.add_0_r b). eapply stays_within; eauto. lia. Qed.

(** ---- The sweep ---- *)

Lemma drop_facts : forall l budget freed l' freed', Forall (fun f => 0 < cf_bytes f) l ->
  dropBytes budget l freed = (l', freed') ->
  (exists gone, l = gone ++ l' /\ freed' = freed + bytesOf gone /\
     (gone = [] \/ exists g f, gone = g ++ [f] /\ freed + bytesOf g < budget)) /\
  (l' = [] \/ budget <= freed').
Proof.
  induction l as [|f l IH]; intros budget freed l' freed' HF E; cbn [dropBytes] in E.
  - injection E as <- <-. split; [|left; reflexivity]. exists []. simpl. repeat split; [lia|left; reflexivity].
  - inversion HF; subst. destruct (Z.ltb_spec freed budget).
    + destruct (IH _ _ _ _ H2 E) as [(gone & -> & -> & Hg) Hend]. split; [|exact Hend].
      exists (f :: gone). cbn [bytesOf fold_right app]. fold (bytesOf gone).
      split; [reflexivity|]. split; [lia|]. right.
      destruct Hg as [-> | (g & f' & -> & Hlt)].
      * exists [], f. simpl. split; [reflexivity|lia].
      * exists (f :: g), f'. cbn [bytesOf fold_right app]. fold (bytesOf g). split; [reflexivity|lia].
    + injection E as <- <-. split; [|right; lia]. exists []. simpl. repeat split; [lia|left; reflexivity].
Qed.

Lemma bytesOf_app : forall a b, bytesOf (a ++ b) = bytesOf a + bytesOf b.
Proof. induction a; intros; simpl; [lia|]. fold (bytesOf (a0 ++ b)) (bytesOf a0). rewrite IHa. lia. Qed.
Lemma bytesOf_pos : forall l, Forall (fun f => 0 < cf_bytes f) l -> 0 <= bytesOf l.
Proof. intros l H. induction H; simpl; [lia|]. fold (bytesOf l). lia. Qed.

(** What a sweep leaves of the entries: an emptied part, one entry cut short, an untouched part. *)
Lemma sweep_shape : forall l excess, 0 < excess -> framesOk l ->
  (Forall (fun c => cc_frames c = []) (sweepLoop excess l) /\ map cc_value (sweepLoop excess l) = map cc_value l /\
     map cc_fixed (sweepLoop excess l) = map cc_fixed l) \/
  exists pre c gone left post, l = pre ++ c :: post /\ cc_frames c = gone ++ left /\
    sweepLoop excess l = map (fun c => mkCC (cc_fixed c) (cc_value c) []) pre ++ mkCC (cc_fixed c) (cc_value c) left :: post /\
    excess <= heldBytes pre + bytesOf gone /\
    exists g f, gone = g ++ [f] /\ heldBytes pre + bytesOf g < excess.
Proof.
  induction l as [|c l IH]; intros excess Hx HF.
  - left. cbn. auto.
  - inversion HF as [|? ? Hc Hl]; subst. cbn [sweepLoop].
    destruct (dropBytes excess (cc_frames c) 0) as [frames freed] eqn:E.
    destruct (drop_facts _ _ _ _ _ Hc E) as [(gone & Eg & Ef & Hg) Hend].
    assert (0 <= bytesOf gone) as Hpos.
    { apply bytesOf_pos. rewrite Eg in Hc. apply Forall_app in Hc. apply Hc. }
    destruct (Z.eqb_spec (excess - Z.min freed excess) 0) as [Hz | Hz].
    + right. exists [], c, gone, frames, l. cbn [app map heldBytes fold_right].
      split; [reflexivity|]. split; [exact Eg|]. split; [reflexivity|]. split; [lia|].
      destruct Hg as [-> | (g & f & -> & Hlt)]; [simpl in *; lia|]. exists g, f. split; [reflexivity|lia].
    + assert (frames = []) by (destruct Hend as [H|H]; [exact H|lia]). subst frames.
      rewrite app_nil_r in Eg. rewrite Eg in *.
      destruct (IH (excess - Z.min freed excess)) as [(A & B & C) | (pre & c0 & gone0 & left & post & -> & Eg0 & Es & Hle & Hlast)]; [lia|exact Hl| |].
      * left. repeat split; [constructor; [reflexivity|exact A]| |]; cbn [map cc_value cc_fixed]; f_equal; assumption.
      * right. exists (c :: pre), c0, gone0, left, post. cbn [app map heldBytes fold_right]. fold (heldBytes pre).
        rewrite Es, Eg. split; [reflexivity|]. split; [exact Eg0|]. split; [reflexivity|].
        replace (Z.min freed excess) with freed in * by lia. split; [lia|].
        destruct Hlast as (g & f & -> & Hlt). exists g, f. split; [reflexivity|lia].
Qed.

Lemma heldBytes_app : forall a b, heldBytes (a ++ b) = heldBytes a + heldBytes b.
Proof. induction a; intros; simpl; [lia|]. fold (heldBytes (a0 ++ b)) (heldBytes a0). rewrite IHa. lia. Qed.
Lemma heldBytes_empty : forall l, Forall (fun c => cc_frames c = []) l -> heldBytes l = 0.
Proof. intros l H. induction H; simpl; [reflexivity|]. fold (heldBytes l). rewrite H. simpl. lia. Qed.
Lemma heldBytes_emptied : forall pre, heldBytes (map (fun c => mkCC (cc_fixed c) (cc_value c) []) pre) = 0.
Proof. induction pre; simpl; auto. Qed.

Lemma sorted_framesOk : forall caches l, framesOk caches -> sorted_entries caches l -> framesOk l.
Proof.
  intros caches l H [P _]. unfold framesOk in *. rewrite Forall_forall in *. intros c Hc.
  apply H. apply (Permutation_in _ P) in Hc. apply filter_In in Hc. apply Hc.
Qed.

(** The sweep gives up exactly what is needed: at least the excess unless all caches are empty,
    and less than the excess without the last frame taken. *)
Lemma sweep_enough : forall limit alloc caches l, framesOk caches -> sorted_entries caches l -> target limit < alloc ->
  let l' := sweep limit alloc l in
  (Forall (fun c => cc_frames c = []) l' \/ alloc - (heldBytes l - heldBytes l') <= target limit) /\
  exists f, In f (flat_map cc_frames l) /\ target limit < alloc - (heldBytes l - heldBytes l') + cf_bytes f \/
    Forall (fun c => cc_frames c = []) l'.
Proof.
  intros limit alloc caches l HF HS Ha. cbv zeta. unfold sweep.
  destruct (Z.leb_spec alloc (target limit)); [lia|].
  destruct (sweep_shape l (alloc - target limit)) as [(A & _ & _) | (pre & c & gone & left & post & -> & Eg & Es & Hle & g & f & -> & Hlt)];
    [lia|eapply sorted_framesOk; eauto| |].
  - split; [left; exact A|]. exists (mkCF 0 false). right. exact A.
  - assert (D : heldBytes (pre ++ c :: post) - heldBytes (sweepLoop (alloc - target limit) (pre ++ c :: post)) = heldBytes pre + bytesOf (g ++ [f])).
    { rewrite Es, !heldBytes_app, heldBytes_emptied. cbn [heldBytes fold_right cc_frames]. fold (heldBytes post).
      rewrite Eg, bytesOf_app. lia. }
    rewrite D. split; [right; lia|]. exists f. left. split.
    + rewrite flat_map_app. apply in_or_app. right. cbn [flat_map]. rewrite Eg. rewrite !in_app_iff. cbn. auto.
    + rewrite bytesOf_app. cbn [bytesOf fold_right]. lia.
Qed.

(** The least valued caches give first. *)
Lemma sweep_order : forall limit alloc caches l i j a b a' b', framesOk caches -> sorted_entries caches l ->
  nth_error l i = Some a -> nth_error l j = Some b ->
  nth_error (sweep limit alloc l) i = Some a' -> nth_error (sweep limit alloc l) j = Some b' ->
  cc_value a < cc_value b -> cc_frames b' <> cc_frames b -> cc_frames a' = [].
Proof.
  intros limit alloc caches l i j a b a' b' HF HS Ha Hb Ha' Hb' Hv Hne. unfold sweep in *.
  destruct (Z.leb_spec alloc (target limit)); [congruence|].
  assert (Hij : (i < j)%nat).
  { destruct HS as [_ SS]. clear - SS Ha Hb Hv. revert i j Ha Hb. induction SS as [|x l SS IH Hx]; intros i j Ha Hb.
    - destruct i; discriminate.
    - destruct i as [|i], j as [|j]; simpl in *.
      + injection Ha as ->. injection Hb as ->. lia.
      + lia.
      + injection Hb as ->. rewrite Forall_forall in Hx. pose proof (Hx _ (nth_error_In _ _ Ha)). simpl in H. lia.
      + pose proof (IH _ _ Ha Hb). lia. }
  destruct (sweep_shape l (alloc - target limit)) as [(A & _ & _) | (pre & c & gone & left & post & -> & Eg & Es & Hle & g & f & -> & Hlt)];
    [lia|eapply sorted_framesOk; eauto| |].
  - rewrite Forall_forall in A. apply A. eapply nth_error_In; eauto.
  - rewrite Es in *. destruct (Nat.ltb_spec i (length pre)).
    + rewrite nth_error_app1 in Ha' by (rewrite map_length; lia). rewrite nth_error_map in Ha'.
      destruct (nth_error pre i); [|discriminate]. injection Ha' as <-. reflexivity.
    + rewrite nth_error_app2 in Hb by lia. rewrite nth_error_app2 in Hb' by (rewrite map_length; lia). rewrite map_length in Hb'.
      destruct (j - length pre)%nat eqn:Ej; [lia|]. simpl in Hb, Hb'. congruence.
Qed.

(** Frames of fixed caches are not among the entries. *)
Lemma sweep_fixed : forall caches l c, sorted_entries caches l -> In c l -> cc_fixed c = false /\ In c caches.
Proof.
  intros caches l c [P _] Hc. apply (Permutation_in _ P) in Hc. apply filter_In in Hc. destruct Hc as [Hc Ht].
  unfold takesPart in Ht. apply andb_true_iff in Ht. destruct Ht as [Ht _]. apply negb_true_iff in Ht. auto.
Qed.

Lemma sweep_idle : forall limit alloc l, alloc <= target limit -> sweep limit alloc l = l.
Proof. intros. unfold sweep. destruct (Z.leb_spec alloc (target limit)); [reflexivity|lia]. Qed.

(** ---- Counterexamples ---- *)

(** A call that first frees what it did not allocate makes room for another, and then takes it
    again, without either allocating more than expected of it. *)
Definition exNet : list pev := [EStart 20; EFree 0 60; EStart 60; EAlloc 0 60; EAlloc 1 80].
Lemma net_counterexample : exists limit evs a b s,
  limit + limit / 4 <= b /\ a <= b /\ predicted limit evs (poolStart a) /\ aloneFits b limit evs (poolStart a) /\
  prun limit evs (poolStart a) = Some s /\ b < p_alloc s.
Proof.
  exists 100, exNet, 100, 125. eexists. split; [vm_compute; discriminate|]. split; [lia|].
  split; [|split; [|split; [vm_compute; reflexivity|vm_compute; reflexivity]]].
  - intros k s E. do 5 (destruct k as [|k]; [vm_compute in E; injection E as <-; repeat constructor; cbn; lia|]).
    rewrite firstn_all2 in E by (cbn; lia). vm_compute in E. injection E as <-. repeat constructor; cbn; lia.
  - intros k s e E Ev Hr. do 5 (destruct k as [|k]; [vm_compute in E; injection E as <-; cbn in *; try discriminate; injection Ev as <-; lia|]).
    destruct k; discriminate.
Qed.

(** The same for calls of clips of variable format that have not been measured: any number of
    them is admitted whatever is in use. *)
Lemma unknown_admitted : forall ssw ssh bps planes limit s,
  expected (-1) (MVideo 0 0 ssw ssh bps planes) = Ok 0 /\ refuse limit s 0 = false.
Proof. intros. split; reflexivity. Qed.

(** Freed bytes of frames that somebody else holds do not leave memory, and the sweep stops on
    their account while there is something else to take. *)
Lemma shared_counterexample : exists limit alloc caches l,
  framesOk caches /\ sorted_entries caches l /\ target limit < alloc /\
  ~ Forall (fun c => cc_frames c = []) (sweep limit alloc l) /\
  target limit < alloc - (ownBytes l - ownBytes (sweep limit alloc l)).
Proof.
  exists 100, 110, [mkCC false 0 [mkCF 30 true]; mkCC false 5 [mkCF 30 false]], [mkCC false 0 [mkCF 30 true]; mkCC false 5 [mkCF 30 false]].
  split; [|split; [|split; [|split]]].
  - repeat constructor.
  - split; [vm_compute; apply Permutation_refl|]. repeat constructor. cbn. lia.
  - vm_compute. reflexivity.
  - intros H. vm_compute in H. inversion H as [|? ? _ H2]; subst. inversion H2 as [|? ? H3 _]; subst. discriminate H3.
  - vm_compute. reflexivity.
Qed.

Lemma ownBytes_le : forall l, Forall (fun c => Forall (fun f => cf_shared f = false) (cc_frames c)) l -> ownBytes l = heldBytes l.
Proof.
  assert (forall fs, Forall (fun f => cf_shared f = false) fs -> filter (fun f => negb (cf_shared f)) fs = fs) as A.
  { intros fs H. induction H; simpl; [reflexivity|]. rewrite H. simpl. congruence. }
  intros l H. induction H; [reflexivity|]. simpl. fold (ownBytes l) (heldBytes l). rewrite A by assumption. lia.
Qed.

Lemma sweep_mem : forall P l excess, Forall (fun c => Forall P (cc_frames c)) l ->
  Forall (fun c => Forall P (cc_frames c)) (sweepLoop excess l).
Proof.
  intros P l. induction l as [|c l IH]; intros excess H; [constructor|]. inversion H; subst. cbn [sweepLoop].
  destruct (dropBytes excess (cc_frames c) 0) as [fr fd] eqn:E.
  assert (Forall P fr) as Hf.
  { clear - E H2. revert E. generalize 0. induction (cc_frames c) as [|f fs IHf]; intros z E; cbn [dropBytes] in E.
    - injection E as <- _. constructor.
    - inversion H2; subst. destruct (z <? excess); [eapply IHf; eauto|]. injection E as <- _. constructor; assumption. }
  destruct (excess - Z.min fd excess =? 0); constructor; auto.
Qed.

Lemma sweep_reaches : forall limit alloc caches l, framesOk caches -> sorted_entries caches l -> target limit < alloc ->
  Forall (fun c => Forall (fun f => cf_shared f = false) (cc_frames c)) l ->
  Forall (fun c => cc_frames c = []) (sweep limit alloc l) \/
  alloc - (ownBytes l - ownBytes (sweep limit alloc l)) <= target limit.
Proof.
  intros limit alloc caches l HF HS Ha Hs.
  assert (Forall (fun c => Forall (fun f => cf_shared f = false) (cc_frames c)) (sweep limit alloc l)) as Hs'.
  { unfold sweep. destruct (alloc <=? target limit); [exact Hs|]. apply sweep_mem. exact Hs. }
  rewrite (ownBytes_le l Hs), (ownBytes_le _ Hs').
  destruct (sweep_enough limit alloc caches l HF HS Ha) as [H _]. exact H.
Qed.

(** A thread that allocates 10, enters a call that allocates 30, enters another that allocates
    25 and frees 20, frees 15 and leaves, and then allocates 7. *)
Definition exProg : prog :=
  PAlloc 10 (PCall (PAlloc 30 (PCall (PAlloc 25 (PFree 20 PDone)) (PFree 15 PDone))) (PAlloc 7 PDone)).
Definition exCaches : list ccache :=
  [mkCC false 7 [mkCF 10 false; mkCF 20 false]; mkCC true 0 [mkCF 50 false]; mkCC false 1 [mkCF 5 false; mkCF 5 false]].
Definition exSorted : list ccache :=
  [mkCC false 1 [mkCF 5 false; mkCF 5 false]; mkCC false 7 [mkCF 10 false; mkCF 20 false]].
Lemma exSorted_ok : framesOk exCaches /\ sorted_entries exCaches exSorted.
Proof.
  split; [repeat constructor|]. split; [vm_compute; apply perm_swap|]. repeat constructor; cbn; lia.
Qed.
