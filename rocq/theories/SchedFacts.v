(** The guarantees of the thread pool, collected from its invariants; concrete runs. *)
From Coq Require Import ZArith List Bool Arith Lia Permutation.
From Verif Require Import Common SchedSpec Sched SchedInv SchedStep SchedSerial SchedThreads SchedHist SchedOrder.
Import ListNotations.
Open Scope Z_scope.

Lemma external_accepted : forall over k s, c_ext (s_ctx (startExternal over k s) (s_next s)) = true /\ s_next (startExternal over k s) = S (s_next s) /\
  s_calls (startExternal over k s) = s_calls s.
Proof.
  intros over k s. unfold startExternal. cbv zeta. destruct (s_flush _).
  - cbn [setAlt newCtx s_ctx s_next s_calls setCounter]. rewrite upd_same. auto.
  - match goal with |- context [wakeThread ?o ?y] => destruct (wake_same o y) as ((_ & _ & _ & _ & _ & _ & _ & W8 & _) & W2 & W3 & _) end. rewrite W2, W3, W8.
    cbn [setTasks newCtx s_ctx s_next s_calls setCounter]. rewrite upd_same. auto.
Qed.
Section Facts.
Variable modeOf : Z -> fmode.
Variable rank : Z -> nat.
Notation reachable := (reachable modeOf rank).
Lemma rinv : forall s, reachable s -> inv rank s. Proof. intros s R. apply (reachable_inv modeOf rank s R). Qed.
Lemma rsinv : forall s, reachable s -> sinv modeOf s. Proof. intros s R. apply (reachable_inv modeOf rank s R). Qed.
Lemma rtinv : forall s, reachable s -> tinv s. Proof. intros s R. apply (reachable_inv modeOf rank s R). Qed.
Lemma nodup_filter_fst : forall (p : nat * res -> bool) l, NoDup (map fst l) -> NoDup (map fst (filter p l)).
Proof.
  intros p l. induction l as [|a l IH]; intros H; [constructor |]. inversion H; subst. cbn [filter]. destruct (p a); [| auto]. cbn [map]. constructor; [| auto].
  intros X. apply in_map_iff in X. destruct X as (y & E & Y). apply filter_In in Y. match goal with N : ~ In _ _ |- _ => apply N end. rewrite <- E. apply in_map, Y.
Qed.
Lemma calls_once : forall s, reachable s -> NoDup (map fst (s_calls s)) /\ forall i r, In (i, r) (s_calls s) -> (i < s_next s)%nat /\ c_ext (s_ctx s i) = true.
Proof.
  intros s R. assert (H := reachable_hinv modeOf rank s R). rewrite (h_calls _ H). split; [apply nodup_filter_fst, (h_nd _ H) |].
  intros i r X. apply filter_In in X. destruct X as (X & Y). split; [apply (h_lt _ H), in_map_iff; exists (i, r); auto | exact Y].
Qed.
Lemma done_result : forall s i, In i (map fst (s_done s)) -> exists r, In (i, r) (s_done s).
Proof. intros s i H. apply in_map_iff in H. destruct H as ((j & r) & <- & H). exists r. exact H. Qed.
Lemma calls_live : forall s i, reachable s -> (i < s_next s)%nat -> c_ext (s_ctx s i) = true -> (In i (s_live s) <-> ~ exists r, In (i, r) (s_calls s)).
Proof.
  intros s i R L X. assert (H := reachable_hinv modeOf rank s R). rewrite (h_live _ H), (h_calls _ H). split.
  - intros (_ & N) (r & Y). apply filter_In in Y. apply N, in_map_iff. exists (i, r). tauto.
  - intros N. split; [exact L |]. intros Y. apply done_result in Y. destruct Y as (r & Y). apply N. exists r. apply filter_In. auto.
Qed.
Lemma nodup_unique : forall (l : list (nat * res)) i r r', NoDup (map fst l) -> In (i, r) l -> In (i, r') l -> r = r'.
Proof.
  induction l as [|a l IH]; intros i r r' N H H'; [destruct H |]. cbn [map] in N. inversion N; subst. destruct H as [-> | H], H' as [H' | H'].
  - congruence.
  - exfalso. match goal with N : ~ In _ _ |- _ => apply N end. apply in_map_iff. exists (i, r'). auto.
  - subst a. exfalso. match goal with N : ~ In _ _ |- _ => apply N end. apply in_map_iff. exists (i, r). auto.
  - eapply IH; eauto.
Qed.
Lemma calls_exactly : forall s, reachable s -> s_live s = [] -> forall i, (i < s_next s)%nat -> c_ext (s_ctx s i) = true -> exists r, forall r', In (i, r') (s_calls s) <-> r' = r.
Proof.
  intros s R E i L X. assert (H := reachable_hinv modeOf rank s R). assert (D : In i (map fst (s_done s))).
  { destruct (in_dec Nat.eq_dec i (map fst (s_done s))) as [D | D]; [exact D |]. exfalso. assert (Y := proj2 (h_live _ H i) (conj L D)). rewrite E in Y. destruct Y. }
  apply done_result in D. destruct D as (r & D). exists r. rewrite (h_calls _ H). intros r'. split.
  - intros Y. apply filter_In in Y. apply (nodup_unique (s_done s) i r' r (h_nd _ H)); tauto.
  - intros ->. apply filter_In. auto.
Qed.
Lemma calls_final : forall s s' i r, reachable s -> step modeOf rank s s' -> In (i, r) (s_calls s) -> In (i, r) (s_calls s').
Proof.
  intros s s' i r R S I. destruct S as [over k Hk | over cached fits j f s' FT SC RC | cached fits j FT SC | j x s' WB RT | over j s' CP | cached fits over FT MP | NT | WT | n Hn | AC].
  - destruct (external_accepted over k s) as (_ & _ & ->). exact I.
  - destruct (runCached_same _ _ _ _ _ RC) as (_ & _ & _). revert RC. unfold runCached. cbv zeta. unfold obind. destruct (tellAll _ _ _ _ _) as [s2| |] eqn:E; [|discriminate|discriminate]. intros X; apply Ok_inj in X. subst s'.
    assert (Q : forall n y, s_calls (sortIfGrown n y) = s_calls y) by (intros; unfold sortIfGrown; destruct (Nat.eqb _ _); reflexivity). rewrite Q.
    destruct (tellAll_same _ _ _ _ _ _ E) as ((_ & _ & _ & _ & _ & _ & _ & -> & _) & _). unfold finish. cbn [retire s_ctx]. destruct (c_ext _); cbn; [apply in_or_app; left |]; exact I.
  - unfold take. cbv zeta. destruct (useSerialLock _ _); [destruct (_ && _) |]; exact I.
  - revert RT. unfold returns. destruct (phaseOf j (s_run s)) as [[lk ar | f0]|]; [|discriminate|discriminate]. cbv zeta. destruct (match x with RFrame _ => _ | _ => _ end); [| | discriminate] || idtac.
    all: try (destruct (match _ with Some _ => _ | None => _ end); [discriminate |]); intros E; apply Ok_inj in E; subst s'; destruct x, lk; try destruct (_ && _); exact I.
  - revert CP. unfold complete. destruct (phaseOf j (s_run s)) as [[lk ar | f0]|]; [discriminate | | discriminate]. cbv zeta.
    assert (Q : forall n y, s_calls (sortIfGrown n y) = s_calls y) by (intros; unfold sortIfGrown; destruct (Nat.eqb _ _); reflexivity).
    destruct (_ && _); unfold obind.
    + destruct (startRequests _ _ _ _) as [s1| |] eqn:E; [|discriminate|discriminate]. intros X; apply Ok_inj in X. subst s'. destruct (startRequests_same _ _ _ _ _ E) as ((_ & _ & _ & _ & _ & _ & _ & Y & _) & _).
      cbn [sortTasks setTasks setCtx s_calls]. rewrite Y. exact I.
    + assert (F : forall r0, In (i, r) (s_calls (finish j r0 (setRun (removeRun j (s_run s)) s)))) by (intros r0; unfold finish; cbn [retire s_ctx]; destruct (c_ext _); cbn; [apply in_or_app; left |]; exact I).
      destruct (c_err (s_ctx s j)); [| destruct f0; [| discriminate]]; (destruct (tellAll _ _ _ _ _) as [s2| |] eqn:E; [|discriminate|discriminate]); intros X; apply Ok_inj in X; subst s'; rewrite Q;
        destruct (tellAll_same _ _ _ _ _ _ E) as ((_ & _ & _ & _ & _ & _ & _ & -> & _) & _); apply F.
  - unfold park. destruct (_ && _); exact I.
  - unfold wakes. destruct (_ <=? _)%nat; exact I.
  - exact I.
  - exact I.
  - exact I.
Qed.
Lemma one_production : forall s i j, reachable s -> In i (s_live s) -> In j (s_live s) ->
  c_ext (s_ctx s i) = false -> c_ext (s_ctx s j) = false -> c_key (s_ctx s i) = c_key (s_ctx s j) -> i = j.
Proof.
  intros s i j R Li Lj Xi Xj E. assert (G := rinv s R).
  assert (A := proj2 (g_all _ _ _ _ _ G (c_key (s_ctx s i)) i) (conj Li (conj Xi eq_refl))). assert (B := proj2 (g_all _ _ _ _ _ G (c_key (s_ctx s i)) j) (conj Lj (conj Xj (eq_sym E)))).
  revert A B. generalize (g_keys _ _ _ _ _ G). generalize (s_all s). intros l. induction l as [|a l IH]; intros N A B; [destruct A |]. cbn [map] in N. inversion N; subst.
  destruct A as [-> | A], B as [B | B].
  - congruence.
  - exfalso. match goal with N : ~ In _ _ |- _ => apply N end. apply in_map_iff. exists (c_key (s_ctx s i), j). auto.
  - subst a. exfalso. match goal with N : ~ In _ _ |- _ => apply N end. apply in_map_iff. exists (c_key (s_ctx s i), i). auto.
  - auto.
Qed.
Lemma attaches : forall s over w k i, reachable s -> In i (s_live s) -> c_ext (s_ctx s i) = false -> c_key (s_ctx s i) = k -> 0 <= snd k ->
  exists s', startInternal over w k s = Ok s' /\ s_next s' = s_next s /\ s_tasks s' = s_tasks s /\ c_notify (s_ctx s' i) = c_notify (s_ctx s i) ++ [w].
Proof.
  intros s over w k i R L X K H. assert (G := rinv s R). unfold startInternal. destruct (Z.ltb_spec (snd k) 0); [lia |].
  destruct (findKey k (s_all s)) as [j|] eqn:F.
  - assert (F2 := findKey_In _ _ _ F). apply (g_all _ _ _ _ _ G) in F2. destruct F2 as (A & B & C). assert (j = i) by (apply (one_production s); congruence || auto). subst j.
    eexists. split; [reflexivity |]. cbn [setCtx s_next s_tasks s_ctx]. rewrite upd_same. auto.
  - exfalso. assert (A := proj2 (g_all _ _ _ _ _ G k i) (conj L (conj X K))). apply (findKey_None _ _ F), in_map_iff. exists (k, i). auto.
Qed.
Lemma all_told : forall s i r, reachable s -> In (i, r) (s_done s) -> sentBy i (s_hist s) = map (fun w => (w, r)) (c_notify (s_ctx s i)).
Proof. intros s i r R. apply (h_told _ (reachable_hinv modeOf rank s R)). Qed.
Lemma locked : forall s i li ri, reachable s -> In (i, Calling li ri) (s_run s) -> useSerialLock (modeOf (nodeOf s i)) (isInitial ri) = true -> In (i, Calling true ri) (s_run s).
Proof. intros s i li ri R H U. assert (V := v_lk _ _ (rsinv s R) _ _ _ H). rewrite U in V. subst li. exact H. Qed.
Lemma exclusive : forall s i j li lj ri rj, reachable s -> In (i, Calling li ri) (s_run s) -> In (j, Calling lj rj) (s_run s) -> nodeOf s i = nodeOf s j ->
  modeOf (nodeOf s i) = fmFrameState \/ modeOf (nodeOf s i) = fmUnordered -> i = j.
Proof.
  intros s i j li lj ri rj R Hi Hj E M. apply (v_one _ _ (rsinv s R) i j ri rj); [eapply locked | eapply locked |]; try eassumption; [| rewrite <- E]; destruct M as [-> | ->]; reflexivity.
Qed.
Lemma exclusive_ready : forall s i j li lj ri rj, reachable s -> In (i, Calling li ri) (s_run s) -> In (j, Calling lj rj) (s_run s) -> nodeOf s i = nodeOf s j ->
  modeOf (nodeOf s i) = fmParallelRequests -> ri <> arInitial -> rj <> arInitial -> i = j.
Proof.
  intros s i j li lj ri rj R Hi Hj E M Ni Nj. apply (v_one _ _ (rsinv s R) i j ri rj); [eapply locked | eapply locked |]; try eassumption; [| rewrite <- E]; rewrite M; [destruct ri | destruct rj]; (congruence || reflexivity).
Qed.
Lemma one_frame : forall s i j, reachable s -> In i (s_live s) -> In j (s_live s) -> i <> j -> nodeOf s i = nodeOf s j -> modeOf (nodeOf s i) = fmFrameState -> c_first (s_ctx s i) = false -> c_first (s_ctx s j) = false ->
  (exists f, In (i, Returned f) (s_run s) /\ finished s i f) \/ (exists f, In (j, Returned f) (s_run s) /\ finished s j f).
Proof.
  intros s i j R Li Lj NE E M Fi Fj. assert (V := rsinv s R).
  destruct (v_fs _ _ V i Li) as [A | A]; [rewrite M; reflexivity | exact Fi | | left; exact A]. destruct (v_fs _ _ V j Lj) as [B | B]; [rewrite <- E, M; reflexivity | exact Fj | | right; exact B].
  rewrite <- E, A in B. congruence.
Qed.
Lemma NoDup_app_r : forall (a b : list nat), NoDup (a ++ b) -> NoDup b.
Proof. induction a as [|x a IH]; intros b H; [exact H |]. cbn [app] in H. inversion H; subst. apply IH. assumption. Qed.
Lemma one_thread : forall s, reachable s -> NoDup (map fst (s_run s)).
Proof.
  intros s R. generalize (g_pnd _ _ _ _ _ (rinv s R)). unfold places. intros H.
  rewrite app_nil_r in H. apply NoDup_app_r, NoDup_app_r in H. exact H.
Qed.
Lemma parallel_frame : forall s i j p q, reachable s -> In (i, p) (s_run s) -> In (j, q) (s_run s) ->
  c_ext (s_ctx s i) = false -> c_ext (s_ctx s j) = false -> c_key (s_ctx s i) = c_key (s_ctx s j) -> i = j.
Proof.
  intros s i j p q R Hi Hj. apply (one_production s i j R); apply (run_live rank s _ (rinv s R)); apply in_map_iff; [exists (i, p) | exists (j, q)]; auto.
Qed.
Lemma result_of : forall s w r, reachable s -> In (w, r) (s_done s) ->
  match firstError (received w (s_hist s)) with Some m => r = Failed m | None => (exists f, r = Frame f) \/ (exists m, r = Failed m /\ In (w, m) (s_own s)) end.
Proof. intros s w r R. apply (h_res _ (reachable_hinv modeOf rank s R)). Qed.
Lemma firstError_some : forall l m, In (Failed m) l -> exists m', firstError l = Some m'.
Proof.
  induction l as [|[f | m0] l IH]; intros m H; [destruct H | |]; cbn [firstError]; [destruct H as [H | H]; [discriminate | eauto] | eauto].
Qed.
Lemma failure_spreads : forall s i m w, reachable s -> In (i, Failed m) (s_done s) -> In w (c_notify (s_ctx s i)) ->
  In (Failed m) (received w (s_hist s)) /\ forall r, In (w, r) (s_done s) -> exists m', r = Failed m'.
Proof.
  intros s i m w R D W. assert (T := all_told s i _ R D). assert (X : In (w, Failed m) (sentBy i (s_hist s))) by (rewrite T; apply in_map_iff; exists w; auto).
  unfold sentBy in X. apply in_map_iff in X. destruct X as (((a & b) & c) & E & X). cbn [fst snd] in E. injection E as -> ->. apply filter_In in X. destruct X as (X & _).
  assert (Y : In (Failed m) (received w (s_hist s))) by (unfold received; apply in_map_iff; exists (a, w, Failed m); split; [reflexivity | apply filter_In; cbn [fst snd]; rewrite Nat.eqb_refl; auto]).
  split; [exact Y |]. intros r Dw. destruct (firstError_some _ _ Y) as (m' & E). generalize (result_of s w r R Dw). rewrite E. eauto.
Qed.
Lemma only_deps : forall s w m, reachable s -> In (Failed m) (received w (s_hist s)) -> exists i, In (i, Failed m) (s_done s) /\ In w (c_notify (s_ctx s i)).
Proof.
  intros s w m R X. unfold received in X. apply in_map_iff in X. destruct X as (((a & b) & c) & E & X). cbn [snd] in E. subst c. apply filter_In in X. destruct X as (X & Y). cbn [fst snd] in Y. apply Nat.eqb_eq in Y. subst b.
  assert (D := proj1 (h_prod _ (reachable_hinv modeOf rank s R) _ _ _ X)). exists a. split; [exact D |]. assert (T := all_told s a _ R D).
  assert (Z : In (w, Failed m) (sentBy a (s_hist s))) by (unfold sentBy; apply in_map_iff; exists (a, w, Failed m); split; [reflexivity | apply filter_In; cbn [fst]; rewrite Nat.eqb_refl; auto]).
  rewrite T in Z. apply in_map_iff in Z. destruct Z as (y & E & Z). injection E as ->. exact Z.
Qed.
Lemma frames_available : forall s i, reachable s -> In i (s_live s) -> c_avail (s_ctx s i) = framesFor (fun j => c_key (s_ctx s j)) i (s_hist s).
Proof. intros s i R. apply (h_avail _ (reachable_hinv modeOf rank s R)). Qed.
Lemma work_found : forall s cached fits, reachable s -> s_run s = [] -> s_tasks s <> [] -> exists i o, scan modeOf s cached fits (s_tasks s) [] = Some (i, o) /\ In i (s_tasks s).
Proof.
  intros s cached fits R E N. destruct (scan modeOf s cached fits (s_tasks s) []) as [(i & o)|] eqn:SC.
  - exists i, o. split; [reflexivity | eapply scan_In; exact SC].
  - exfalso. apply N. apply (scan_progress modeOf rank s cached fits (rinv s R) (rsinv s R) E SC).
Qed.
Lemma nothing_lost : forall s i, reachable s -> In i (s_live s) ->
  In i (s_tasks s) \/ (In i (s_alt s) /\ s_flush s = true) \/ In i (map fst (s_run s)) \/ (exists j, In j (s_live s) /\ In i (c_notify (s_ctx s j))).
Proof.
  intros s i R L. assert (G := rinv s R). destruct (c_nreq (s_ctx s i)) as [|q] eqn:E.
  - apply (g_zero _ _ _ _ _ G i L) in E. unfold places in E. rewrite !in_app_iff in E. destruct E as [E | [E | [E | []]]]; auto.
    right. left. split; [exact E |]. destruct (s_flush s) eqn:F; [reflexivity |]. rewrite (t_alt _ (rtinv s R) F) in E. destruct E.
  - right. right. right. assert (W : owedBy (s_ctx s) (s_live s) i <> 0%nat) by (generalize (g_count _ _ _ _ _ G i L (fun y => y)); change (countIn [] i) with 0%nat; lia).
    destruct (existsb (fun j => existsb (Nat.eqb i) (c_notify (s_ctx s j))) (s_live s)) eqn:X.
    + apply existsb_exists in X. destruct X as (j & A & B). apply existsb_exists in B. destruct B as (y & B & C). apply Nat.eqb_eq in C. subst y. exists j. auto.
    + exfalso. apply W, owedBy_zero. intros j A B. assert (Y : existsb (fun j => existsb (Nat.eqb i) (c_notify (s_ctx s j))) (s_live s) = true); [| congruence].
      apply existsb_exists. exists j. split; [exact A |]. apply existsb_exists. exists i. split; [exact B | apply Nat.eqb_refl].
Qed.
Lemma thread_awake : forall s, reachable s -> s_live s <> [] -> (0 < s_active s + s_notified s)%nat.
Proof.
  intros s R N. assert (G := rinv s R). assert (T := rtinv s R). destruct (s_run s) as [|e r] eqn:RE; [| generalize (t_run _ T); rewrite RE; cbn [List.length]; lia].
  destruct (s_live s) as [|x l] eqn:LE; [contradiction |]. assert (L : In x (s_live s)) by (rewrite LE; left; reflexivity).
  destruct (c_nreq (s_ctx s x)) as [|q] eqn:E.
  - apply (g_zero _ _ _ _ _ G x L) in E. unfold places in E. rewrite RE in E. cbn [map] in E. rewrite !in_app_iff in E. destruct E as [E | [E | [[] | []]]].
    + apply (t_work _ T). intros Z. rewrite Z in E. destruct E.
    + apply (t_flush _ T). destruct (s_flush s) eqn:F; [reflexivity |]. rewrite (t_alt _ T F) in E. destruct E.
  - destruct (waiting_task rank s G RE _ x (Nat.lt_succ_diag_r _) L ltac:(lia)) as (t & H & _). apply (t_work _ T). intros Z. rewrite Z in H. destruct H.
Qed.
Lemma completes : forall s over i f, reachable s -> phaseOf i (s_run s) = Some (Returned f) ->
  (f = None -> c_err (s_ctx s i) = None -> c_reqs (s_ctx s i) <> []) -> exists s', complete over i s = Ok s'.
Proof. intros s over i f R P N. destruct (complete_ok rank over i f s (rinv s R) P N) as (s' & E & _). exists s'. exact E. Qed.
Lemma flush_ends : forall s, reachable s -> s_flush s = true -> s_active s = 1%nat -> s_tasks (park s) = s_alt s /\ s_alt (park s) = s_tasks s /\ s_flush (park s) = false /\
  (forall cached fits, s_run s = [] -> scan modeOf s cached fits (s_tasks s) [] = None -> s_tasks s = []).
Proof.
  intros s R F A. unfold park. rewrite F, A. cbn [andb Nat.eqb]. split; [reflexivity |]. split; [reflexivity |]. split; [reflexivity |].
  intros cached fits E SC. apply (scan_progress modeOf rank s cached fits (rinv s R) (rsinv s R) E SC).
Qed.
Lemma in_order : forall s, reachable s -> inOrder (map (fun i => (c_order (s_ctx s i), snd (c_key (s_ctx s i)))) (s_tasks s)).
Proof. intros s R. apply (sorted_inOrder s (s_tasks s)), (reachable_qinv modeOf rank s R). Qed.
Lemma places_of : forall s over k, reachable s ->
  (forall i, In i (s_live s) -> c_order (s_ctx s i) < c_order (s_ctx (startExternal over k s) (s_next s))) /\
  (forall ov w s', startInternal ov w k s = Ok s' -> findKey k (s_all s) = None -> c_order (s_ctx s' (s_next s)) = c_order (s_ctx s w)) /\
  (forall ov w s' i, startInternal ov w k s = Ok s' -> findKey k (s_all s) = Some i -> c_order (s_ctx s' i) = Z.min (c_order (s_ctx s i)) (c_order (s_ctx s w))).
Proof.
  intros s over k R. assert (G := rinv s R). split; [| split].
  - intros i L. apply (g_order _ _ _ _ _ G) in L. assert (X : c_order (s_ctx (startExternal over k s) (s_next s)) = s_counter s + 1); [| lia].
    unfold startExternal. cbv zeta. destruct (s_flush _); [cbn [setAlt newCtx s_ctx s_next setCounter]; rewrite upd_same; reflexivity |].
    match goal with |- context [wakeThread ?o ?y] => destruct (wake_same o y) as (_ & W2 & _) end. rewrite W2. cbn [setTasks newCtx s_ctx s_next setCounter]. rewrite upd_same. reflexivity.
  - intros ov w s'. unfold startInternal. destruct (snd k <? 0); [discriminate |]. intros E F. rewrite F in E. apply Ok_inj in E. subst s'. unfold queueTask. cbv zeta.
    match goal with |- context [wakeThread ?o ?y] => destruct (wake_same o y) as (_ & W2 & _) end. rewrite W2. cbn [setTasks setAll newCtx s_ctx s_next]. rewrite upd_same. reflexivity.
  - intros ov w s' i. unfold startInternal. destruct (snd k <? 0); [discriminate |]. intros E F. rewrite F in E. apply Ok_inj in E. subst s'. cbn [setCtx s_ctx]. rewrite upd_same. reflexivity.
Qed.
Lemma scan_takes_first : forall s cached fits i o, scan modeOf s cached fits (s_tasks s) [] = Some (i, o) ->
  exists p q, s_tasks s = p ++ i :: q /\ forall a j b, p = a ++ j :: b -> passedOver modeOf s cached fits a j.
Proof. intros s cached fits i o E. apply (scan_first_gen modeOf s cached fits (s_tasks s) [] [] i o); [intros nd [] | exact E]. Qed.
End Facts.

(** ** Runs *)
Definition par (_ : Z) : fmode := fmParallel.
Definition rk (nd : Z) : nat := Z.to_nat nd.
Definition serial2 (nd : Z) : fmode := if nd =? 2 then fmFrameState else fmParallel.
Ltac from_run m n es :=
  let s := fresh "s" in let E := fresh "E" in
  destruct (runOf m rk n es) as [s|] eqn:E; [| exfalso; vm_compute in E; discriminate E]; exists s; split; [exact (runOf_reachable m rk n es s E) |]; vm_compute in E; injection E as <-.
Definition chainRun : list event :=
  [EExternal (2, 3); ETake 0; EReturns 0 (RRequests [(1, 3)]); EComplete 0; ETake 1; EReturns 1 (RFrame 50); EComplete 1; ETake 0; EReturns 0 (RFrame 70); EComplete 0].
Lemma chain_ex : exists s, reachable (fun _ => fmParallel) (fun nd => Z.to_nat nd) s /\ s_calls s = [(0%nat, Frame 70)] /\ s_live s = [] /\ s_next s = 2%nat.
Proof. from_run par 1%nat chainRun. repeat split. Qed.
Lemma share_ex : exists s, reachable (fun _ => fmParallel) (fun nd => Z.to_nat nd) s /\ c_notify (s_ctx s 2) = [0%nat; 1%nat] /\ s_tasks s = [2%nat] /\ s_next s = 3%nat.
Proof.
  from_run par 1%nat [EExternal (2, 0); EExternal (2, 1); ETake 0; ETake 1; EReturns 0 (RRequests [(1, 0)]); EComplete 0; EReturns 1 (RRequests [(1, 0)]); EComplete 1]. repeat split.
Qed.
Lemma twice_ex : exists modeOf rank s i j, reachable modeOf rank s /\ i <> j /\ c_key (s_ctx s i) = c_key (s_ctx s j) /\
  In (i, Calling false arInitial) (s_run s) /\ In (j, Calling false arInitial) (s_run s).
Proof.
  exists par, rk. destruct (runOf par rk 1%nat [EExternal (1, 5); EExternal (1, 5); ETake 0; ETake 1]) as [s|] eqn:E; [| exfalso; vm_compute in E; discriminate E].
  exists s, 0%nat, 1%nat. split; [exact (runOf_reachable _ _ _ _ s E) |]. vm_compute in E. injection E as <-. split; [discriminate |]. split; [reflexivity |]. cbn. auto.
Qed.
Lemma beside_ex : exists rank s i j, reachable (fun _ => fmParallel) rank s /\ i <> j /\ c_key (s_ctx s i) = c_key (s_ctx s j) /\
  c_ext (s_ctx s i) = true /\ c_ext (s_ctx s j) = false /\ In (i, Calling false arInitial) (s_run s) /\ In (j, Calling false arInitial) (s_run s).
Proof.
  exists rk. destruct (runOf par rk 1%nat [EExternal (2, 0); ETake 0; EReturns 0 (RRequests [(1, 0)]); EComplete 0; EExternal (1, 0); ETake 1; ETake 2]) as [s|] eqn:E; [| exfalso; vm_compute in E; discriminate E].
  exists s, 2%nat, 1%nat. split; [exact (runOf_reachable par rk _ _ s E) |]. vm_compute in E. injection E as <-. split; [discriminate |]. split; [reflexivity |]. cbn. split; [reflexivity |]. split; [reflexivity |]. split; auto.
Qed.
Lemma serial_ex : exists s, reachable (fun nd => if nd =? 2 then fmFrameState else fmParallel) (fun nd => Z.to_nat nd) s /\
  In 1%nat (s_tasks s) /\ c_key (s_ctx s 1) = (2, 1) /\ s_sowner s 2 = Some 0%nat /\ s_run s = [] /\
  forall fits, scan (fun nd => if nd =? 2 then fmFrameState else fmParallel) s noCache fits (s_tasks s) [] = Some (2%nat, None).
Proof.
  from_run serial2 1%nat [EExternal (2, 0); EExternal (2, 1); ETake 0; EReturns 0 (RRequests [(1, 0)]); EComplete 0].
  split; [cbn; auto |]. split; [reflexivity |]. split; [reflexivity |]. split; [reflexivity |]. intros fits. vm_compute. reflexivity.
Qed.
Lemma failing_ex : exists s, reachable (fun _ => fmParallel) (fun nd => Z.to_nat nd) s /\ s_calls s = [(1%nat, Frame 5); (0%nat, Failed 41)] /\ received 0 (s_hist s) = [Failed 41; Failed 42].
Proof.
  from_run par 2%nat [EExternal (2, 0); EExternal (1, 9); ETake 0; EReturns 0 (RRequests [(1, 0); (1, 1)]); EComplete 0; ETake 2; EReturns 2 (RError 41); EComplete 2;
    ETake 3; EReturns 3 (RError 42); EComplete 3; ETake 0; ETake 1; EReturns 1 (RFrame 5); EComplete 1; EReturns 0 (RError 99); EComplete 0]. repeat split.
Qed.
Lemma nested_ex : exists modeOf rank s i j, reachable modeOf rank s /\ In (i, Calling false arInitial) (s_run s) /\ List.length (s_run s) = 1%nat /\
  s_tasks s = [j] /\ c_ext (s_ctx s j) = true /\ (rank (nodeOf s j) < rank (nodeOf s i))%nat /\ scan modeOf s noCache (fun _ => false) (s_tasks s) [] = None.
Proof.
  exists par, rk. destruct (runOf par rk 1%nat [EExternal (2, 0); ETake 0; EExternal (1, 0)]) as [s|] eqn:E; [| exfalso; vm_compute in E; discriminate E].
  exists s, 0%nat, 1%nat. split; [exact (runOf_reachable _ _ _ _ s E) |]. vm_compute in E. injection E as <-. split; [cbn; auto |]. split; [reflexivity |]. split; [reflexivity |]. split; [reflexivity |]. split; [cbn; lia | reflexivity].
Qed.
Lemma inversion_ex : exists modeOf rank s j w, reachable modeOf rank s /\ In j (s_tasks s) /\ In w (c_notify (s_ctx s j)) /\ In w (s_live s) /\ c_order (s_ctx s w) < c_order (s_ctx s j).
Proof.
  exists par, rk. destruct (runOf par rk 2%nat [EExternal (3, 0); EExternal (3, 1); ETake 0; ETake 1; EReturns 1 (RRequests [(2, 0)]); EComplete 1; ETake 2; EReturns 2 (RRequests [(1, 0)]); EComplete 2;
    EReturns 0 (RRequests [(2, 0)]); EComplete 0]) as [s|] eqn:E; [| exfalso; vm_compute in E; discriminate E].
  exists s, 3%nat, 2%nat. split; [exact (runOf_reachable _ _ _ _ s E) |]. vm_compute in E. injection E as <-. cbn. split; [auto |]. split; [auto |]. split; [auto | lia].
Qed.
Lemma order_ex : exists s, reachable (fun _ => fmParallel) (fun nd => Z.to_nat nd) s /\ map (fun i => (c_order (s_ctx s i), snd (c_key (s_ctx s i)))) (s_tasks s) = [(1, 7); (1, 9); (2, 3); (3, 0)].
Proof.
  from_run par 2%nat [EExternal (2, 0); EExternal (5, 3); EExternal (5, 0); ETake 0; EReturns 0 (RRequests [(1, 9); (1, 7)]); EComplete 0]. reflexivity.
Qed.
