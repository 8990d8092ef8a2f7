(** Every step keeps the invariant; what steps leave alone. *)
From Coq Require Import ZArith List Bool Arith Lia Permutation.
From Verif Require Import Common SchedSpec Sched SchedInv.
Import ListNotations.
Open Scope Z_scope.

(** ** What is left alone *)
Definition sameRest (s s' : st) : Prop :=
  s_run s' = s_run s /\ s_mutex s' = s_mutex s /\ s_sframe s' = s_sframe s /\ s_sowner s' = s_sowner s /\ s_counter s' = s_counter s /\ s_flush s' = s_flush s /\ s_max s' = s_max s /\
  s_calls s' = s_calls s /\ s_done s' = s_done s /\ s_own s' = s_own s /\ s_alt s' = s_alt s.
Lemma sameRest_refl : forall s, sameRest s s.
Proof. intros s. repeat split. Qed.
Lemma sameRest_trans : forall a b c, sameRest a b -> sameRest b c -> sameRest a c.
Proof.
  intros a b c (A1 & A2 & A3 & A4 & A5 & A6 & A7 & A8 & A9 & A10 & A11) (B1 & B2 & B3 & B4 & B5 & B6 & B7 & B8 & B9 & B10 & B11). repeat split; congruence.
Qed.
Lemma wake_same : forall o s, sameRest s (wakeThread o s) /\ s_ctx (wakeThread o s) = s_ctx s /\ s_next (wakeThread o s) = s_next s /\ s_live (wakeThread o s) = s_live s /\
  s_hist (wakeThread o s) = s_hist s /\ s_all (wakeThread o s) = s_all s /\ s_tasks (wakeThread o s) = s_tasks s.
Proof. intros o s. unfold wakeThread. repeat match goal with |- context [if ?b then _ else _] => destruct b end; repeat split. Qed.
(** Contexts alike but for what telling changes. *)
Definition alike (c c' : ctx) : Prop :=
  c_key c' = c_key c /\ c_ext c' = c_ext c /\ c_order c' = c_order c /\ c_first c' = c_first c /\ c_notify c' = c_notify c /\ c_reqs c' = c_reqs c.
Lemma tell_same : forall over i r w s s', tell over i r w s = Ok s' -> sameRest s s' /\ s_next s' = s_next s /\ s_live s' = s_live s /\ s_all s' = s_all s /\ s_hist s' = s_hist s ++ [(i, w, r)] /\
  (forall j, alike (s_ctx s j) (s_ctx s' j)) /\ (forall j, j <> w -> s_ctx s' j = s_ctx s j) /\ (0 < c_nreq (s_ctx s w))%nat /\
  c_err (s_ctx s' w) = match r with Failed m => setError m (c_err (s_ctx s w)) | Frame _ => c_err (s_ctx s w) end /\
  c_avail (s_ctx s' w) = c_avail (s_ctx s w) ++ match r with Frame f => [(c_key (s_ctx s i), f)] | Failed _ => [] end /\
  (s_tasks s' = s_tasks s \/ s_tasks s' = w :: s_tasks s).
Proof.
  intros over i r w s s'. unfold tell. destruct (c_nreq (s_ctx s w)) as [|n] eqn:E; [discriminate |]. intros X; apply Ok_inj in X. subst s'.
  set (c := mkC _ _ _ _ n _ _ _ _). set (s1 := addHist (i, w, r) (setCtx w c s)).
  assert (F : sameRest s s1 /\ s_next s1 = s_next s /\ s_live s1 = s_live s /\ s_all s1 = s_all s /\ s_hist s1 = s_hist s ++ [(i, w, r)] /\
    (forall j, alike (s_ctx s j) (s_ctx s1 j)) /\ (forall j, j <> w -> s_ctx s1 j = s_ctx s j) /\
    c_err (s_ctx s1 w) = match r with Failed m => setError m (c_err (s_ctx s w)) | Frame _ => c_err (s_ctx s w) end /\
    c_avail (s_ctx s1 w) = c_avail (s_ctx s w) ++ match r with Frame f => [(c_key (s_ctx s i), f)] | Failed _ => [] end).
  { split; [repeat split |]. do 4 (split; [reflexivity |]). split; [| split; [| split]].
    - intros j. cbn [s1 addHist setCtx s_ctx]. unfold upd. destruct (Nat.eqb j w) eqn:Y; [apply Nat.eqb_eq in Y; subst |]; repeat split.
    - intros j Hj. cbn [s1 addHist setCtx s_ctx]. apply upd_other, Hj.
    - cbn [s1 addHist setCtx s_ctx]. rewrite upd_same. reflexivity.
    - cbn [s1 addHist setCtx s_ctx]. rewrite upd_same. cbn [c c_avail]. destruct r; [reflexivity | rewrite app_nil_r; reflexivity]. }
  destruct F as (F1 & F2 & F3 & F4 & F5 & F6 & F7 & F8 & F9).
  destruct (Nat.eqb n 0).
  - unfold queueTask. destruct (wake_same (over w) (setTasks (w :: s_tasks s1) s1)) as (W1 & W2 & W3 & W4 & W5 & W6 & W7).
    split; [exact (sameRest_trans _ _ _ F1 (sameRest_trans _ (setTasks (w :: s_tasks s1) s1) _ (sameRest_refl s1) W1)) |].
    rewrite W2, W3, W4, W5, W6, W7. cbn [setTasks s_next s_live s_all s_hist s_ctx s_tasks]. repeat (split; [first [assumption | lia] |]). right. reflexivity.
  - repeat (split; [first [assumption | lia] |]). left. reflexivity.
Qed.
Lemma alike_refl : forall c, alike c c.
Proof. intros c. repeat split. Qed.
Lemma alike_trans : forall a b c, alike a b -> alike b c -> alike a c.
Proof. intros a b c (A1 & A2 & A3 & A4 & A5 & A6) (B1 & B2 & B3 & B4 & B5 & B6). repeat split; congruence. Qed.
Lemma tellAll_same : forall over i r ws s s', tellAll over i r ws s = Ok s' -> sameRest s s' /\ s_next s' = s_next s /\ s_live s' = s_live s /\ s_all s' = s_all s /\
  s_hist s' = s_hist s ++ map (fun w => (i, w, r)) ws /\ (forall j, alike (s_ctx s j) (s_ctx s' j)) /\ (forall j, c_nreq (s_ctx s j) = 0%nat -> s_ctx s' j = s_ctx s j) /\
  (exists added, s_tasks s' = added ++ s_tasks s).
Proof.
  induction ws as [|w l IH]; intros s s'; cbn [tellAll].
  - intros E; apply Ok_inj in E; subst s'. split; [apply sameRest_refl |]. cbn [map]. rewrite app_nil_r. repeat (split; [reflexivity |]). split; [intros; apply alike_refl | split; [reflexivity | exists []; reflexivity]].
  - unfold obind. destruct (tell over i r w s) as [s1| |] eqn:E; [|discriminate|discriminate]. intros E'.
    destruct (tell_same _ _ _ _ _ _ E) as (A1 & A2 & A3 & A4 & A5 & A6 & A7 & A8 & _ & _ & A9). destruct (IH _ _ E') as (B1 & B2 & B3 & B4 & B5 & B6 & B7 & (t & B8)).
    split; [apply (sameRest_trans _ _ _ A1 B1) |]. rewrite B2, B3, B4, B5, A2, A3, A4, A5, <- app_assoc. repeat (split; [reflexivity |]).
    split; [intros j; apply (alike_trans _ _ _ (A6 j) (B6 j)) |]. split.
    + intros j Hj. assert (N : j <> w) by (intros ->; lia). rewrite B7; rewrite A7; auto.
    + destruct A9 as [A9 | A9]; rewrite A9 in B8; [exists t; exact B8 | exists (t ++ [w]); rewrite <- app_assoc; exact B8].
Qed.
(** Old contexts alike but for order and notify list. *)
Definition kept (c c' : ctx) : Prop :=
  c_key c' = c_key c /\ c_ext c' = c_ext c /\ c_first c' = c_first c /\ c_nreq c' = c_nreq c /\ c_err c' = c_err c /\ c_avail c' = c_avail c /\ c_reqs c' = c_reqs c.
Lemma kept_refl : forall c, kept c c.
Proof. intros c. repeat split. Qed.
Lemma kept_trans : forall a b c, kept a b -> kept b c -> kept a c.
Proof. intros a b c (A1 & A2 & A3 & A4 & A5 & A6 & A7) (B1 & B2 & B3 & B4 & B5 & B6 & B7). repeat split; congruence. Qed.
Lemma startInternal_same : forall over w k s s', startInternal over w k s = Ok s' -> sameRest s s' /\ s_hist s' = s_hist s /\
  (s_next s <= s_next s')%nat /\ (forall j, (j < s_next s)%nat -> kept (s_ctx s j) (s_ctx s' j)) /\
  (forall j, In j (s_live s') <-> In j (s_live s) \/ (s_next s <= j < s_next s')%nat) /\
  (forall j, (s_next s <= j < s_next s')%nat -> c_first (s_ctx s' j) = true /\ c_err (s_ctx s' j) = None /\ c_avail (s_ctx s' j) = [] /\ c_ext (s_ctx s' j) = false) /\
  (forall j, (j < s_next s)%nat -> c_notify (s_ctx s' j) = c_notify (s_ctx s j) \/ In (c_key (s_ctx s' j), j) (s_all s) \/ In (k, j) (s_all s)).
Proof.
  intros over w k s s'. unfold startInternal. destruct (snd k <? 0); [discriminate |].
  destruct (findKey k (s_all s)) as [i|] eqn:FK; intros E; apply Ok_inj in E; subst s'.
  - split; [repeat split |]. split; [reflexivity |]. cbn [setCtx s_next s_ctx s_live]. split; [lia |]. split; [| split; [| split]].
    + intros j _. unfold upd. destruct (Nat.eqb j i) eqn:Y; [apply Nat.eqb_eq in Y; subst |]; repeat split.
    + intros j. split; [auto | intros [A | A]; [exact A | lia]].
    + intros j Hj. lia.
    + intros j _. unfold upd. destruct (Nat.eqb j i) eqn:Y; [| left; reflexivity]. apply Nat.eqb_eq in Y; subst. right. right. apply findKey_In, FK.
  - unfold queueTask. cbv zeta. set (s1 := newCtx _ s). set (s2 := setTasks _ _).
    destruct (wake_same (over (s_next s)) s2) as (W1 & W2 & W3 & W4 & W5 & W6 & W7). rewrite W2, W3, W4, W5.
    split; [refine (sameRest_trans _ s2 _ _ W1); repeat split |]. split; [reflexivity |]. cbn [s2 s1 setTasks setAll newCtx s_next s_ctx s_live]. split; [lia |]. split; [| split; [| split]].
    + intros j Hj. rewrite upd_other by lia. apply kept_refl.
    + intros j. rewrite in_app_iff. cbn [In]. split; [intros [A | [A | []]]; [left; exact A | right; lia] | intros [A | A]; [left; exact A | right; left; lia]].
    + intros j Hj. replace j with (s_next s) by lia. rewrite upd_same. repeat split.
    + intros j Hj. rewrite upd_other by lia. left. reflexivity.
Qed.
Lemma startRequests_same : forall over w ks s s', startRequests over w ks s = Ok s' -> sameRest s s' /\ s_hist s' = s_hist s /\
  (s_next s <= s_next s')%nat /\ (forall j, (j < s_next s)%nat -> kept (s_ctx s j) (s_ctx s' j)) /\
  (forall j, In j (s_live s') <-> In j (s_live s) \/ (s_next s <= j < s_next s')%nat) /\
  (forall j, (s_next s <= j < s_next s')%nat -> c_first (s_ctx s' j) = true /\ c_err (s_ctx s' j) = None /\ c_avail (s_ctx s' j) = [] /\ c_ext (s_ctx s' j) = false).
Proof.
  induction ks as [|k r IH]; intros s s'; cbn [startRequests].
  - intros E; apply Ok_inj in E; subst s'. split; [apply sameRest_refl |]. split; [reflexivity |]. split; [lia |]. split; [intros; apply kept_refl |]. split; [intros j; split; [auto | intros [A | A]; [exact A | lia]] | intros; lia].
  - unfold obind. destruct (startInternal over w k s) as [s1| |] eqn:E; [|discriminate|discriminate]. intros E'.
    destruct (startInternal_same _ _ _ _ _ E) as (A1 & A2 & A3 & A4 & A5 & A6 & _). destruct (IH _ _ E') as (B1 & B2 & B3 & B4 & B5 & B6).
    split; [apply (sameRest_trans _ _ _ A1 B1) |]. split; [congruence |]. split; [lia |]. split; [| split].
    + intros j Hj. apply (kept_trans _ (s_ctx s1 j)); [apply A4, Hj | apply B4; lia].
    + intros j. rewrite B5, A5. split; [intros [[A | A] | A]; [left; exact A | right; lia | right; lia] | intros [A | A]; [left; left; exact A |]]. destruct (Nat.lt_ge_cases j (s_next s1)); [left; right; lia | right; lia].
    + intros j Hj. destruct (Nat.lt_ge_cases j (s_next s1)) as [L | L]; [| apply B6; lia].
      destruct (A6 j ltac:(lia)) as (X1 & X2 & X3 & X4). destruct (B4 j L) as (Y1 & Y2 & Y3 & Y4 & Y5 & Y6 & Y7). repeat split; congruence.
Qed.

(** ** The invariant *)
Section Steps.
Variable modeOf : Z -> fmode.
Variable rank : Z -> nat.
Notation ginv := (ginv rank).
Notation inv := (inv rank).
Lemma ginv_enrun : forall i p s, ginv [i] 0 [] s -> c_first (s_ctx s i) = false -> c_reqs (s_ctx s i) = [] -> inv (setRun (s_run s ++ [(i, p)]) s).
Proof.
  intros i p s H F R. set (s' := setRun _ s).
  assert (PP : places [] s' = places [i] s).
  { unfold places. cbn [s' setRun s_tasks s_alt s_run]. rewrite map_app, app_nil_r. reflexivity. }
  assert (IP : In i (places [i] s)) by (unfold places; rewrite !in_app_iff; right; right; right; left; reflexivity).
  destruct H. unfold SchedInv.inv. constructor; rewrite ?PP; auto.
  - intros j Hj _. destruct (Nat.eq_dec j i) as [-> | N].
    + destruct (g_limbo i (or_introl eq_refl)) as (A & _). change (s_ctx s') with (s_ctx s). change (s_live s') with (s_live s). rewrite A. change (countIn [] i) with 0%nat.
      apply g_zero; [exact Hj | exact IP].
    + apply g_count; [exact Hj |]. intros [X | []]; congruence.
  - intros j [].
  - intros j Hj NE. destruct (g_reqs j Hj NE) as [(f & A) | [<- | []]]; [left; exists f; cbn; apply in_or_app; left; exact A | contradiction].
  - intros j Hj E. change (s_ctx s') with (s_ctx s) in E. destruct (g_first j Hj E) as (A & B). split; [| exact B]. destruct A as [A | [A | [<- | []]]]; [auto | auto | congruence].
Qed.
Lemma NoDup_app_l : forall A (a b : list A), NoDup (a ++ b) -> NoDup a.
Proof. induction a as [|x a IH]; intros b N; [constructor |]. inversion N; subst. constructor; [rewrite in_app_iff in H1; tauto | eapply IH; eassumption]. Qed.
Lemma NoDup_app_r : forall A (a b : list A), NoDup (a ++ b) -> NoDup b.
Proof. induction a as [|x a IH]; intros b N; [exact N |]. inversion N; subst. auto. Qed.
Lemma NoDup_app_disj : forall A (a b : list A) x, NoDup (a ++ b) -> In x a -> In x b -> False.
Proof.
  induction a as [|y a IH]; intros b x N Ha Hb; [destruct Ha |]. inversion N as [|? ? NI ND]; subst.
  destruct Ha as [-> | Ha]; [apply NI, in_or_app; auto | eapply IH; eassumption].
Qed.
Lemma inv_runs : forall s, inv s -> NoDup (map fst (s_run s)).
Proof. intros s H. generalize (g_pnd _ _ _ _ _ H). unfold places. rewrite app_nil_r. intros N. apply NoDup_app_r in N. apply NoDup_app_r in N. exact N. Qed.
Lemma task_not_run : forall s i, inv s -> In i (s_tasks s) -> ~ In i (map fst (s_run s)).
Proof.
  intros s i H A B. generalize (g_pnd _ _ _ _ _ H). unfold places. rewrite app_nil_r. intros N. apply (NoDup_app_disj _ _ _ i N A), in_or_app. auto.
Qed.
Lemma run_not_alt : forall s i, inv s -> In i (s_alt s) -> ~ In i (map fst (s_run s)).
Proof.
  intros s i H A B. generalize (g_pnd _ _ _ _ _ H). unfold places. rewrite app_nil_r. intros N. apply NoDup_app_r in N. apply (NoDup_app_disj _ _ _ i N A B).
Qed.
Lemma task_live : forall s i, inv s -> In i (s_tasks s) -> In i (s_live s).
Proof. intros s i H A. apply (g_plive _ _ _ _ _ H). unfold places. apply in_or_app. auto. Qed.
Lemma run_live : forall s i, inv s -> In i (map fst (s_run s)) -> In i (s_live s).
Proof. intros s i H A. apply (g_plive _ _ _ _ _ H). unfold places. rewrite !in_app_iff. auto. Qed.
Lemma run_first : forall s i, inv s -> In i (map fst (s_run s)) -> c_first (s_ctx s i) = false.
Proof.
  intros s i H A. destruct (c_first (s_ctx s i)) eqn:E; [| reflexivity]. exfalso. destruct (g_first _ _ _ _ _ H i (run_live _ _ H A) E) as ([X | [X | []]] & _).
  - apply (task_not_run s i H X A).
  - apply (run_not_alt s i H X A).
Qed.
Lemma run_nreq : forall s i, inv s -> In i (map fst (s_run s)) -> c_nreq (s_ctx s i) = 0%nat.
Proof. intros s i H A. apply (g_zero _ _ _ _ _ H i (run_live _ _ H A)). unfold places. rewrite !in_app_iff. auto. Qed.
Lemma task_reqs : forall s i, inv s -> In i (s_tasks s) -> c_reqs (s_ctx s i) = [].
Proof.
  intros s i H A. destruct (c_reqs (s_ctx s i)) as [|k l] eqn:E; [reflexivity |]. exfalso.
  destruct (g_reqs _ _ _ _ _ H i (task_live _ _ H A)) as [(f & B) | []]; [rewrite E; discriminate |].
  apply (task_not_run s i H A). apply in_map_iff. exists (i, Returned f). auto.
Qed.
Lemma inv_take : forall s i, inv s -> In i (s_tasks s) -> inv (take modeOf i s).
Proof.
  intros s i H Hi. unfold take. cbv zeta. set (s1 := if useSerialLock _ _ then _ else s).
  assert (E : s_ctx s1 = s_ctx s /\ s_tasks s1 = s_tasks s /\ s_run s1 = s_run s /\ inv s1).
  { unfold s1. destruct (useSerialLock _ _); [| auto]. destruct (isFrameState _ && _); (split; [reflexivity | split; [reflexivity | split; [reflexivity |]]]); apply ginv_setSerial, H. }
  destruct E as (E1 & E2 & E3 & H1). clearbody s1.
  assert (T1 : In i (s_tasks s1)) by (rewrite E2; exact Hi).
  assert (L := task_live s i H Hi).
  assert (FE : c_first (s_ctx s i) = true -> c_err (s_ctx s i) = None) by (intros X; apply (g_first _ _ _ _ _ H i L X)).
  assert (RQ := task_reqs s i H Hi).
  set (s2 := setCtx i _ _).
  assert (G : ginv [i] 0 [] s2).
  { apply ginv_setCtx; cbn [setTasks s_ctx setFirst c_key c_ext c_notify c_nreq c_order c_first c_err c_reqs s_counter s_alt s_run]; rewrite ?E1; try reflexivity; try lia.
    - destruct (c_err (s_ctx s i)); [intros X; apply FE in X; discriminate | discriminate].
    - intros X. exfalso. generalize (g_pnd _ _ _ _ _ H1). unfold places. intros N. apply (NoDup_app_disj _ _ _ i N T1), in_or_app. auto.
    - rewrite RQ. intros []. reflexivity.
    - rewrite RQ. constructor.
    - apply ginv_untask; assumption. }
  apply (ginv_enrun i _ s2); [exact G | |]; cbn [s2 setCtx s_ctx]; rewrite upd_same; cbn [setFirst c_first c_reqs].
  - destruct (c_err (s_ctx s i)) eqn:X; [| reflexivity]. destruct (c_first (s_ctx s i)) eqn:Y; [| reflexivity]. discriminate (FE eq_refl).
  - exact RQ.
Qed.
Lemma In_setPhase : forall i p l j q, In (j, q) (setPhase i p l) <-> (j <> i /\ In (j, q) l) \/ (j = i /\ q = p /\ In i (map fst l)).
Proof.
  intros i p l j q. unfold setPhase. rewrite in_map_iff. split.
  - intros ((a & b) & E & I). cbn in E. destruct (Nat.eqb a i) eqn:X.
    + apply Nat.eqb_eq in X; subst a. injection E as -> ->. right. repeat split. apply in_map_iff. exists (j, b). auto.
    + injection E as -> ->. apply Nat.eqb_neq in X. left. auto.
  - intros [(A & B) | (-> & -> & A)].
    + exists (j, q). split; [| exact B]. cbn. destruct (Nat.eqb j i) eqn:X; [apply Nat.eqb_eq in X; congruence | reflexivity].
    + apply in_map_iff in A. destruct A as ((a & b) & E & I). cbn in E. subst a. exists (i, b). cbn. rewrite Nat.eqb_refl. auto.
Qed.
Lemma inv_setPhase : forall s i f, inv s -> inv (setRun (setPhase i (Returned f) (s_run s)) s).
Proof.
  intros s i f H. set (s' := setRun _ s). assert (PP : places [] s' = places [] s) by (unfold places; cbn [s' setRun s_tasks s_alt s_run]; rewrite setPhase_fst; reflexivity).
  unfold SchedInv.inv in *. destruct H. constructor; rewrite ?PP; auto.
  intros j Hj NE. destruct (g_reqs j Hj NE) as [(f' & A) | []]. left. destruct (Nat.eq_dec j i) as [-> | N].
  - exists f. cbn [s' setRun s_run]. apply In_setPhase. right. repeat split. apply in_map_iff. exists (i, Returned f'). auto.
  - exists f'. cbn [s' setRun s_run]. apply In_setPhase. left. auto.
Qed.
Definition wellBehaved (s : st) (i : nat) (x : ret) : Prop :=
  match x with RRequests ks => ks <> [] /\ Forall (fun k => 0 <= snd k /\ (rank (fst k) < rank (fst (c_key (s_ctx s i))))%nat) ks | _ => True end.
Lemma inv_returns : forall s i x s', inv s -> wellBehaved s i x -> returns modeOf i x s = Ok s' -> inv s'.
Proof.
  intros s i x s' H WB. unfold returns. destruct (phaseOf i (s_run s)) as [[lk ar | f0]|] eqn:P; [|discriminate|discriminate].
  cbv zeta. set (f := match x with RFrame f => Some f | _ => None end). set (c := mkC _ _ _ _ _ _ _ _ _).
  destruct (match f with Some _ => hasError c | None => false end); [discriminate |]. intros E; apply Ok_inj in E; subst s'.
  assert (IR := phaseOf_fst _ _ _ P). assert (IL := run_live _ _ H IR). assert (FF := run_first _ _ H IR).
  set (s1 := match x with RError m => addOwn (i, m) s | _ => s end).
  assert (E : s_ctx s1 = s_ctx s /\ s_run s1 = s_run s /\ inv s1) by (unfold s1; destruct x; (split; [reflexivity | split; [reflexivity | first [exact H | apply ginv_addOwn, H]]])).
  destruct E as (E1 & E2 & H1). clearbody s1.
  set (s2 := setRun _ _).
  assert (G : inv s2).
  { change s2 with (setCtx i c (setRun (setPhase i (Returned f) (s_run s1)) s1)).
    apply ginv_setCtx; cbn [setRun s_ctx c c_key c_ext c_notify c_nreq c_order c_first c_err c_reqs s_counter s_alt s_run]; rewrite ?E1; try reflexivity; try lia.
    - rewrite FF. discriminate.
    - intros X. assert (Y := run_not_alt s1 i H1 X). rewrite E2 in Y. contradiction.
    - intros _. left. exists f. rewrite E2. apply In_setPhase. right. auto.
    - unfold nodeOf. cbn [setRun s_ctx]. rewrite E1. destruct x; try apply (g_rank _ _ _ _ _ H i IL). apply Forall_app. split; [apply (g_rank _ _ _ _ _ H i IL) | apply WB].
    - apply inv_setPhase, H1. }
  clearbody s2. destruct lk; [| exact G]. destruct (_ && _); apply ginv_setSerial, G.
Qed.
Lemma inv_unlimbo : forall i n c s, ginv [i] n [] s -> (0 < n)%nat -> c_key c = c_key (s_ctx s i) -> c_ext c = c_ext (s_ctx s i) -> c_notify c = c_notify (s_ctx s i) -> c_nreq c = n ->
  c_order c = c_order (s_ctx s i) -> c_first c = false -> c_first (s_ctx s i) = false -> c_reqs c = [] -> inv (setCtx i c s).
Proof.
  intros i n c s H Hn E1 E2 E3 E4 E5 E6 E9 E7.
  assert (K : forall j, c_key (s_ctx (setCtx i c s) j) = c_key (s_ctx s j)) by (intros j; cbn [setCtx s_ctx]; unfold upd; destruct (Nat.eqb j i) eqn:E; [apply Nat.eqb_eq in E; subst; auto | reflexivity]).
  assert (X : forall j, c_ext (s_ctx (setCtx i c s) j) = c_ext (s_ctx s j)) by (intros j; cbn [setCtx s_ctx]; unfold upd; destruct (Nat.eqb j i) eqn:E; [apply Nat.eqb_eq in E; subst; auto | reflexivity]).
  assert (N : forall j, c_notify (s_ctx (setCtx i c s) j) = c_notify (s_ctx s j)) by (intros j; cbn [setCtx s_ctx]; unfold upd; destruct (Nat.eqb j i) eqn:E; [apply Nat.eqb_eq in E; subst; auto | reflexivity]).
  assert (O : forall j, c_order (s_ctx (setCtx i c s) j) = c_order (s_ctx s j)) by (intros j; cbn [setCtx s_ctx]; unfold upd; destruct (Nat.eqb j i) eqn:E; [apply Nat.eqb_eq in E; subst; auto | reflexivity]).
  assert (FI : forall j, c_first (s_ctx (setCtx i c s) j) = c_first (s_ctx s j)) by (intros j; cbn [setCtx s_ctx]; unfold upd; destruct (Nat.eqb j i) eqn:E; [apply Nat.eqb_eq in E; subst; congruence | reflexivity]).
  assert (W : forall j, owedBy (s_ctx (setCtx i c s)) (s_live (setCtx i c s)) j = owedBy (s_ctx s) (s_live s) j) by (intros j; apply owedBy_ext; intros; apply N).
  assert (OT : forall j, j <> i -> s_ctx (setCtx i c s) j = s_ctx s j) by (intros j Hj; cbn [setCtx s_ctx]; apply upd_other, Hj).
  assert (OI : s_ctx (setCtx i c s) i = c) by (cbn [setCtx s_ctx]; apply upd_same).
  assert (PP : Permutation (places [i] s) (i :: places [] s)).
  { unfold places. rewrite app_nil_r, !app_assoc, <- Permutation_cons_append. reflexivity. }
  assert (NI : ~ In i (places [] s)) by (generalize (Permutation_NoDup PP (g_pnd _ _ _ _ _ H)); intros Y; inversion Y; auto).
  destruct H. constructor; auto.
  - change (places [] (setCtx i c s)) with (places [] s). apply (Permutation_NoDup PP) in g_pnd. inversion g_pnd; assumption.
  - intros j Hj. apply g_plive, (Permutation_in _ (Permutation_sym PP)). right. exact Hj.
  - intros j Hj. change (places [] (setCtx i c s)) with (places [] s). destruct (Nat.eq_dec j i) as [-> | NE].
    + rewrite OI. split; [contradiction | lia].
    + rewrite (OT j NE), <- (g_zero j Hj). split; intros Y; [apply (Permutation_in _ (Permutation_sym PP)); right; exact Y | apply (Permutation_in _ PP) in Y; destruct Y; [congruence | assumption]].
  - intros j Hj _. rewrite W. change (countIn [] j) with 0%nat. destruct (Nat.eq_dec j i) as [-> | NE].
    + rewrite OI. destruct (g_limbo i (or_introl eq_refl)) as (-> & _). lia.
    + rewrite (OT j NE). apply g_count; [exact Hj |]. intros [Y | []]; congruence.
  - intros j [].
  - intros j Hj. rewrite X, N. apply g_ext, Hj.
  - intros j Hj. rewrite X, N. apply g_int, Hj.
  - intros j Hj. rewrite X, FI. apply g_alt, Hj.
  - intros j w Hj. unfold nodeOf. rewrite N, !K. apply g_wait, Hj.
  - intros k j. rewrite X, K. apply g_all.
  - intros j Hj. rewrite O. apply g_order, Hj.
  - intros j Hj NE. destruct (Nat.eq_dec j i) as [-> | NJ]; [rewrite OI in NE; congruence |]. rewrite (OT j NJ) in NE. destruct (g_reqs j Hj NE) as [A | [A | []]]; [left; exact A | congruence].
  - intros j Hj. unfold nodeOf. rewrite K. destruct (Nat.eq_dec j i) as [-> | NE]; [rewrite OI, E7; constructor | rewrite (OT j NE); apply g_rank, Hj].
  - intros j Hj. rewrite K. apply g_frame, Hj.
  - intros j Hj. rewrite FI. intros F. destruct (Nat.eq_dec j i) as [-> | NE]; [congruence |]. rewrite (OT j NE). destruct (g_first j Hj F) as (A & B). split; [| exact B]. destruct A as [A | [A | [A | []]]]; [auto | auto | congruence].
Qed.

(** Ending a context that is in no list. *)
Lemma inv_ends : forall over i r s, ginv [i] 0 [] s -> exists s', tellAll over i r (c_notify (s_ctx s i)) (finish i r s) = Ok s' /\ inv s'.
Proof.
  intros over i r s H. destruct (ginv_finish rank i r s H) as (A & B & C).
  destruct (ginv_tellAll rank over i r (c_notify (s_ctx s i)) (finish i r s)) as (s' & E & G & _); [exact A | rewrite B; exact C |]. exists s'. auto.
Qed.
Lemma finish_ctx : forall i r s, s_ctx (finish i r s) = s_ctx s.
Proof. intros. unfold finish. cbn [retire s_ctx]. destruct (c_ext (s_ctx s i)); reflexivity. Qed.
Lemma runCached_ok : forall over i f s, inv s -> In i (s_tasks s) -> exists s', runCached over i f s = Ok s' /\ inv s'.
Proof.
  intros over i f s H Hi. unfold runCached. rewrite finish_ctx.
  destruct (inv_ends over i (Frame f) _ (ginv_untask rank s i H Hi)) as (s' & E & G). cbv zeta. rewrite E. cbn [obind]. eexists. split; [reflexivity |]. apply ginv_sortIfGrown, G.
Qed.
Lemma complete_ok : forall over i f s, inv s -> phaseOf i (s_run s) = Some (Returned f) ->
  (f = None -> c_err (s_ctx s i) = None -> c_reqs (s_ctx s i) <> []) -> exists s', complete over i s = Ok s' /\ inv s'.
Proof.
  intros over i f s H P ND. assert (IR := phaseOf_fst _ _ _ P). assert (IL := run_live _ _ H IR). assert (FF := run_first _ _ H IR).
  assert (G := ginv_unrun rank s i _ H P). unfold complete. rewrite P. cbv zeta. set (s0 := setRun (removeRun i (s_run s)) s) in *.
  destruct (_ && _) eqn:RQ.
  - apply andb_true_iff in RQ. destruct RQ as (RQ & _).
    destruct (startRequests_ok over i (c_reqs (s_ctx s i)) s0) as (s1 & E).
    { eapply Forall_impl; [| apply (g_rank _ _ _ _ _ H i IL)]. cbv beta. tauto. }
    rewrite E. cbn [obind]. eexists. split; [reflexivity |].
    destruct (ginv_requests rank over i (c_reqs (s_ctx s i)) s0 0 s1 G (g_rank _ _ _ _ _ H i IL) E) as (G1 & C1 & R1). rewrite Nat.add_0_r in G1.
    assert (C2 : s_ctx s1 i = s_ctx s i) by (rewrite C1; reflexivity). apply ginv_sort. rewrite C2.
    apply (inv_unlimbo i (List.length (c_reqs (s_ctx s i)))); cbn [c_key c_ext c_notify c_nreq c_order c_first c_reqs]; rewrite ?C2; auto.
    apply negb_true_iff, Nat.eqb_neq in RQ. lia.
  - assert (CE : forall r, exists s', obind (tellAll over i r (c_notify (s_ctx s i)) (finish i r s0)) (fun s' => Ok (sortIfGrown (List.length (s_tasks (finish i r s0))) s')) = Ok s' /\ inv s').
    { intros r. destruct (inv_ends over i r s0 G) as (s' & E & GG). change (s_ctx s0 i) with (s_ctx s i) in E. rewrite E. cbn [obind]. eexists. split; [reflexivity |]. apply ginv_sortIfGrown, GG. }
    destruct (c_err (s_ctx s i)) as [m|] eqn:CR; [apply CE |]. destruct f as [f|]; [apply CE |]. exfalso.
    unfold hasError in RQ. rewrite CR in RQ. cbn in RQ. rewrite andb_true_r in RQ. apply negb_false_iff, Nat.eqb_eq in RQ. apply (ND eq_refl eq_refl). destruct (c_reqs (s_ctx s i)); [reflexivity | discriminate].
Qed.
Lemma complete_phase : forall over i s s', complete over i s = Ok s' -> exists f, phaseOf i (s_run s) = Some (Returned f) /\ (f = None -> c_err (s_ctx s i) = None -> c_reqs (s_ctx s i) <> []).
Proof.
  intros over i s s'. unfold complete. destruct (phaseOf i (s_run s)) as [[lk ar | f]|]; [discriminate | | discriminate]. intros E. exists f. split; [reflexivity |]. intros -> N R. revert E. cbv zeta.
  unfold hasError. rewrite N, R. cbn. discriminate.
Qed.
Lemma scan_In : forall s cached fits l seen i o, scan modeOf s cached fits l seen = Some (i, o) -> In i l.
Proof.
  induction l as [|a r IH]; intros seen i o; cbn [scan]; [discriminate |].
  destruct (if c_first (s_ctx s a) then cached a else None); [intros E; injection E as <- _; left; reflexivity |].
  cbv zeta. repeat match goal with |- context [if ?b then scan _ _ _ _ _ _ else _] => destruct b; [intros E; right; eapply IH; exact E |] end. intros E; injection E as <- _; left; reflexivity.
Qed.
Lemma scan_cached_first : forall s cached fits l seen i f, scan modeOf s cached fits l seen = Some (i, Some f) -> c_first (s_ctx s i) = true.
Proof.
  induction l as [|a r IH]; intros seen i f; cbn [scan]; [discriminate |].
  destruct (c_first (s_ctx s a)) eqn:F; [destruct (cached a) |]; [intros E; injection E as <- _; exact F | |];
  cbv zeta; repeat match goal with |- context [if ?b then scan _ _ _ _ _ _ else _] => destruct b; [intros E; eapply IH; exact E |] end; discriminate.
Qed.
Lemma inv_step : forall s s', inv s -> (s_flush s = true -> s_active s = 1%nat -> freeThread s = true -> (forall cached fits, scan modeOf s cached fits (s_tasks s) [] = None -> s_tasks s = []) ) -> (0 < s_max s)%nat ->
  step modeOf rank s s' -> inv s'.
Proof.
  intros s s' H PK MX S. destruct S as [over k Hk | over cached fits i f s' FT SC RC | cached fits i FT SC | i x s' WB RT | over i s' CP | cached fits over FT MP | NT | WT | n Hn | AC].
  - apply ginv_external; assumption.
  - apply scan_In in SC. destruct (runCached_ok over i f s H SC) as (s2 & E & G). rewrite RC in E. apply Ok_inj in E. subst. exact G.
  - apply inv_take; [exact H | eapply scan_In; exact SC].
  - eapply inv_returns; eassumption.
  - destruct (complete_phase _ _ _ _ CP) as (f & P & ND). destruct (complete_ok over i f s H P ND) as (s2 & E & G). rewrite CP in E. apply Ok_inj in E. subst. exact G.
  - unfold park. destruct (s_flush s && Nat.eqb (s_active s) 1) eqn:E; [| apply ginv_setThreads, H].
    apply andb_true_iff in E. destruct E as (E1 & E2). apply Nat.eqb_eq in E2. apply ginv_setThreads, ginv_setFlush, ginv_swap; [| exact H].
    apply (PK E1 E2 FT cached fits). unfold mayPark in MP. rewrite E2 in MP. destruct (scan modeOf s cached fits (s_tasks s) []); [| reflexivity]. exfalso.
    cbn [orb] in MP. change (1 <? 1)%nat with false in MP. rewrite andb_false_r, orb_false_r in MP. apply Nat.ltb_lt in MP. lia.
  - unfold wakes. destruct (_ <=? _)%nat; apply ginv_setThreads, H.
  - apply ginv_setThreads, H.
  - apply ginv_setMax, H.
  - apply ginv_setFlush, H.
Qed.
Lemma inv_start : forall n, inv (start n).
Proof. intros n. constructor; try (intros; contradiction); try constructor; cbn; intros; try contradiction; try tauto. Qed.
End Steps.
