(** There is always something to run and somebody to run it; all invariants together. *)
From Coq Require Import ZArith List Bool Arith Lia Permutation.
From Verif Require Import Common SchedSpec Sched SchedInv SchedStep SchedSerial.
Import ListNotations.
Open Scope Z_scope.

Section Threads.
Variable modeOf : Z -> fmode.
Variable rank : Z -> nat.
Notation inv := (inv rank).
Notation sinv := (sinv modeOf).

(** ** The serial invariant, the other steps *)
Lemma sinv_external : forall s over k, inv s -> sinv s -> sinv (startExternal over k s).
Proof.
  intros s over k G H. unfold startExternal. cbv zeta. set (s1 := newCtx _ _). set (i := s_next s) in *.
  assert (F : forall s', s_run s' = s_run s -> s_mutex s' = s_mutex s -> s_sframe s' = s_sframe s -> s_sowner s' = s_sowner s -> s_ctx s' = s_ctx s1 -> s_live s' = s_live s1 -> sinv s').
  { intros s' A1 A2 A3 A4 A5 A6. apply (sinv_frame modeOf rank s); auto; rewrite ?A5, ?A6; cbn [s1 newCtx s_ctx s_live setCounter s_next].
    - intros j Hj. assert (X := g_lt _ _ _ _ _ G j Hj). rewrite upd_other by lia. split; [apply in_or_app; left; exact Hj | auto].
    - intros j Hj. apply in_app_iff in Hj. destruct Hj as [Hj | [<- | []]]; [left; exact Hj | right; rewrite upd_same; reflexivity].
    - intros j Hj. assert (X := g_lt _ _ _ _ _ G j (run_live rank _ _ G Hj)). rewrite upd_other by lia. reflexivity. }
  destruct (s_flush s1); [apply F; reflexivity |].
  destruct (wake_same over (setTasks (s_tasks s1 ++ [i]) s1)) as ((W1 & W2 & W3 & W4 & _) & W5 & _ & W6 & _).
  apply F; rewrite ?W1, ?W2, ?W3, ?W4, ?W5, ?W6; reflexivity.
Qed.
Lemma finish_same : forall i r s, s_run (finish i r s) = s_run s /\ s_mutex (finish i r s) = s_mutex s /\ s_sframe (finish i r s) = s_sframe s /\ s_sowner (finish i r s) = s_sowner s /\
  s_live (finish i r s) = removeTask i (s_live s) /\ s_ctx (finish i r s) = s_ctx s /\ s_active (finish i r s) = s_active s /\ s_tasks (finish i r s) = s_tasks s.
Proof. intros. unfold finish. cbn [retire s_ctx]. destruct (c_ext (s_ctx s i)); repeat split. Qed.
Lemma sortIfGrown_same : forall n s, let s' := sortIfGrown n s in sameRest s s' /\ s_ctx s' = s_ctx s /\ s_live s' = s_live s /\ s_hist s' = s_hist s /\ s_next s' = s_next s /\
  s_active s' = s_active s /\ s_notified s' = s_notified s /\ (s_tasks s' = [] <-> s_tasks s = []).
Proof.
  intros n s. cbv zeta. unfold sortIfGrown. destruct (Nat.eqb _ _); [split; [apply sameRest_refl |]; repeat split; auto |]. unfold sortTasks. split; [repeat split |]. repeat split.
  - cbn [setTasks s_tasks]. intros E. generalize (sort_perm s (s_tasks s)). rewrite E. apply Permutation_nil.
  - cbn [setTasks s_tasks]. intros ->. reflexivity.
Qed.
(** [s0]: the state after the context left its list and ended. *)
Lemma sinv_after : forall over i r s0 s', inv s' -> sinv s0 -> (forall j, In j (map fst (s_run s0)) -> c_nreq (s_ctx s0 j) = 0%nat /\ In j (s_live s0)) ->
  tellAll over i r (c_notify (s_ctx s0 i)) s0 = Ok s' -> sinv s'.
Proof.
  intros over i r s0 s' G H Z E. destruct (tellAll_same _ _ _ _ _ _ E) as ((A1 & A2 & A3 & A4 & _) & A5 & A6 & A7 & A8 & A9 & A10 & _).
  assert (N : forall j, nodeOf s' j = nodeOf s0 j) by (intros j; unfold nodeOf; destruct (A9 j) as (-> & _); reflexivity).
  assert (FI : forall j, c_first (s_ctx s' j) = c_first (s_ctx s0 j)) by (intros j; apply (A9 j)).
  assert (RC : forall j p, In (j, p) (s_run s0) -> s_ctx s' j = s_ctx s0 j) by (intros j p Hj; apply A10, Z, in_map_iff; exists (j, p); auto).
  destruct H. constructor; rewrite ?A1, ?A2, ?A3, ?A4, ?A6; auto.
  - intros nd. rewrite v_mx. split; intros (j & ar & B & C); exists j, ar; [rewrite N | rewrite N in C]; auto.
  - intros j k a b B C. rewrite !N. eauto.
  - intros j lk ar B. rewrite N. eauto.
  - intros nd o B. destruct (v_own nd o B) as (B1 & B2 & B3 & B4 & B5 & B6). rewrite N, FI. destruct (A9 o) as (-> & _). repeat split; auto. intros f X. unfold finished. rewrite (RC _ _ X). apply B6, X.
  - intros j B. rewrite N, FI. intros C D. destruct (v_fs j B C D) as [X | (f & X & Y)]; [left; exact X | right; exists f; split; [exact X |]]. unfold finished. rewrite (RC _ _ X). exact Y.
Qed.
Lemma sinv_sort : forall n s, sinv s -> sinv (sortIfGrown n s).
Proof.
  intros n s H. destruct H. assert (E := sortIfGrown_same n s). cbv zeta in E. destruct E as ((A1 & A2 & A3 & A4 & _) & A5 & A6 & _).
  constructor; unfold nodeOf, finished in *; rewrite ?A1, ?A2, ?A3, ?A4, ?A5, ?A6; auto.
Qed.
Lemma sinv_runCached : forall over i f s s', inv s -> sinv s -> In i (s_tasks s) -> c_first (s_ctx s i) = true -> runCached over i f s = Ok s' -> sinv s'.
Proof.
  intros over i f s s' G H Hi F. unfold runCached. cbv zeta. set (s0 := finish i (Frame f) _).
  assert (FS := finish_same i (Frame f) (setTasks (removeTask i (s_tasks s)) s)). fold s0 in FS. cbn [setTasks s_run s_mutex s_sframe s_sowner s_live s_ctx] in FS. destruct FS as (F1 & F2 & F3 & F4 & F5 & F6 & _).
  assert (NR := task_not_run rank s i G Hi).
  unfold obind. destruct (tellAll over i (Frame f) (c_notify (s_ctx s0 i)) s0) as [s1| |] eqn:E; [|discriminate|discriminate]. intros X; apply Ok_inj in X. subst s'. apply sinv_sort.
  assert (G1 : inv s1).
  { assert (Y := inv_ends rank over i (Frame f) _ (ginv_untask rank s i G Hi)). destruct Y as (s2 & E2 & G2). fold s0 in E2. rewrite F6 in E. cbn [setTasks s_ctx] in E2. rewrite E in E2. apply Ok_inj in E2. subst. exact G2. }
  refine (sinv_after over i (Frame f) s0 s1 G1 _ _ E).
  - apply (sinv_retire modeOf rank s s0 i); auto. rewrite F1. symmetry. unfold removeRun. clear - NR. induction (s_run s) as [|[j p] l IH]; [reflexivity |]. cbn [filter fst]. cbn [map fst In] in NR.
    destruct (Nat.eqb j i) eqn:E; [apply Nat.eqb_eq in E; tauto |]. cbn [negb]. f_equal. apply IH. tauto.
  - intros j Hj. rewrite F1 in Hj. rewrite F6, F5. split; [apply (run_nreq rank _ _ G Hj) |]. apply In_removeTask. split; [apply (run_live rank _ _ G Hj) | intros ->; contradiction].
Qed.
Lemma sinv_complete : forall over i s s', inv s -> sinv s -> complete over i s = Ok s' -> sinv s'.
Proof.
  intros over i s s' G H CP. destruct (complete_phase _ _ _ _ CP) as (f & P & ND).
  assert (IR := phaseOf_fst _ _ _ P). assert (IL := run_live rank _ _ G IR). assert (IC := phaseOf_In _ _ _ P). assert (G0 := ginv_unrun rank s i _ G P).
  revert CP. unfold complete. rewrite P. cbv zeta. set (s0 := setRun (removeRun i (s_run s)) s) in *.
  assert (RJ : forall j, In j (map fst (s_run s0)) -> In j (map fst (s_run s)) /\ j <> i) by (intros j Hj; cbn [s0 setRun s_run] in Hj; rewrite removeRun_fst in Hj; apply In_removeTask in Hj; exact Hj).
  destruct (_ && _) eqn:RQ.
  - apply andb_true_iff in RQ. destruct RQ as (RQ & DN). apply negb_true_iff in DN.
    unfold obind. destruct (startRequests over i (c_reqs (s_ctx s i)) s0) as [s1| |] eqn:E; [|discriminate|discriminate]. intros X; apply Ok_inj in X. subst s'.
    destruct (ginv_requests rank over i (c_reqs (s_ctx s i)) s0 0 s1 G0 (g_rank _ _ _ _ _ G i IL) E) as (G1 & C1 & R1).
    destruct (startRequests_same _ _ _ _ _ E) as ((A1 & A2 & A3 & A4 & _) & A5 & A6 & A7 & A8 & A9).
    assert (NF : ~ finished s i f).
    { unfold finished. destruct f as [f|]; [discriminate |]. unfold hasError in DN. destruct (c_err (s_ctx s i)); [discriminate |]. intros [A | A]; congruence. }
    assert (H0 : sinv s0) by (apply (sinv_unrun modeOf rank s i f); assumption).
    set (s2 := setCtx i _ s1).
    assert (LT : forall j, In j (s_live s) -> (j < s_next s)%nat) by (apply (g_lt _ _ _ _ _ G)).
    assert (H2 : sinv s2).
    { assert (K : forall j, In j (s_live s) -> c_key (s_ctx s2 j) = c_key (s_ctx s j) /\ c_first (s_ctx s2 j) = c_first (s_ctx s j) /\ c_err (s_ctx s2 j) = c_err (s_ctx s j)).
      { intros j Hj. destruct (A7 j (LT j Hj)) as (B1 & B2 & B3 & B4 & B5 & B6 & B7). change (s_ctx s0 j) with (s_ctx s j) in *.
        cbn [s2 setCtx s_ctx]. unfold upd. destruct (Nat.eqb j i) eqn:X; [apply Nat.eqb_eq in X; subst j; cbn [c_key c_first c_err] |]; auto. }
      assert (RL : forall j p, In (j, p) (s_run s0) -> In j (s_live s)) by (intros j p Hj; apply (run_live rank _ _ G), RJ, in_map_iff; exists (j, p); auto).
      assert (N : forall j, In j (s_live s) -> nodeOf s2 j = nodeOf s0 j) by (intros j Hj; unfold nodeOf; destruct (K j Hj) as (-> & _); reflexivity).
      assert (FN : forall j fr, In (j, Returned fr) (s_run s0) -> (finished s2 j fr <-> finished s0 j fr)) by (intros j fr Hj; unfold finished; destruct (K j (RL _ _ Hj)) as (_ & _ & ->); reflexivity).
      destruct H0. constructor; cbn [s2 setCtx s_run s_mutex s_sframe s_sowner s_live]; rewrite ?A1, ?A2, ?A3, ?A4; auto.
      - intros nd. rewrite v_mx. split; intros (j & ar & B & C); exists j, ar; [rewrite N | rewrite N in C]; eauto.
      - intros j k a b B C. rewrite (N j), (N k) by eauto. eauto.
      - intros j lk ar B. rewrite N by eauto. eauto.
      - intros nd o B. destruct (v_own nd o B) as (B1 & B2 & B3 & B4 & B5 & B6). fold s2. destruct (K o B2) as (K1 & K2 & _). rewrite N by exact B2. rewrite K1, K2, A8. repeat split; auto. intros fr X. rewrite FN by exact X. apply B6, X.
      - intros j B. fold s2. apply A8 in B. destruct B as [B | B].
        + destruct (K j B) as (_ & K2 & _). rewrite (N j B), K2. intros C D. destruct (v_fs j B C D) as [X | (fr & X & Y)]; [left; exact X | right; exists fr; split; [exact X |]]. rewrite FN by exact X. exact Y.
        + intros _ C. exfalso. assert (NI : j <> i) by (intros ->; generalize (LT i IL); change (s_next s0) with (s_next s) in B; lia).
          cbn [s2 setCtx s_ctx] in C. rewrite upd_other in C by exact NI. destruct (A9 j B) as (A9' & _). congruence. }
    clearbody s2. destruct H2. constructor; auto.
  - assert (CE : forall r s', finished s i f -> obind (tellAll over i r (c_notify (s_ctx s i)) (finish i r s0)) (fun s' => Ok (sortIfGrown (List.length (s_tasks (finish i r s0))) s')) = Ok s' -> sinv s').
    { intros r s2 FN. destruct (inv_ends rank over i r s0 G0) as (s1 & E & G1). change (s_ctx s0 i) with (s_ctx s i) in E. rewrite E. cbn [obind]. intros X; apply Ok_inj in X; subst s2. apply sinv_sort.
      assert (FS := finish_same i r s0). cbn [s0 setRun s_run s_mutex s_sframe s_sowner s_live s_ctx] in FS. fold s0 in FS. destruct FS as (F1 & F2 & F3 & F4 & F5 & F6 & _).
      refine (sinv_after over i r (finish i r s0) s1 G1 _ _ _); [| | rewrite F6; exact E].
      - apply (sinv_retire modeOf rank s _ i); auto. right. exists f. auto.
      - intros j Hj. rewrite F1 in Hj. change (removeRun i (s_run s)) with (s_run s0) in Hj. apply RJ in Hj. destruct Hj as (Hj & NE). rewrite F6, F5. split; [apply (run_nreq rank _ _ G Hj) |]. apply In_removeTask. split; [apply (run_live rank _ _ G Hj) | exact NE]. }
    destruct (c_err (s_ctx s i)) as [m|] eqn:CR; [apply CE; right; rewrite CR; discriminate |]. destruct f as [f|]; [apply CE; left; discriminate | discriminate].
Qed.
Lemma sinv_threads : forall s a w n, sinv s -> sinv (setThreads a w n s).
Proof. intros s a w n H. destruct H. constructor; auto. Qed.
Lemma sinv_step : forall s s', inv s -> sinv s -> step modeOf rank s s' -> sinv s'.
Proof.
  intros s s' G H S. destruct S as [over k Hk | over cached fits i f s' FT SC RC | cached fits i FT SC | i x s' WB RT | over i s' CP | cached fits over FT MP | NT | WT | n Hn | AC].
  - apply sinv_external; assumption.
  - eapply sinv_runCached; [exact G | exact H | eapply scan_In; exact SC | eapply scan_cached_first; exact SC | exact RC].
  - eapply sinv_take; [exact G | exact H | eapply scan_In; exact SC | eapply scan_fits; exact SC].
  - eapply sinv_returns; eassumption.
  - eapply sinv_complete; eassumption.
  - unfold park. destruct (_ && _); destruct H; constructor; auto.
  - unfold wakes. destruct (_ <=? _)%nat; apply sinv_threads, H.
  - apply sinv_threads, H.
  - destruct H; constructor; auto.
  - destruct H; constructor; auto.
Qed.
Lemma sinv_start : forall n, sinv (start n).
Proof. intros n. constructor; cbn; try contradiction; try discriminate; try reflexivity. intros nd. split; [discriminate | intros (i & ar & [] & _)]. Qed.

(** ** There is something to run *)
Lemma scan_none : forall s cached fits l seen, s_run s = [] -> (forall nd, s_mutex s nd = false) -> scan modeOf s cached fits l seen = None ->
  forall i, In i l -> if isFrameState (modeOf (nodeOf s i)) then s_sframe s (nodeOf s i) <> -1 /\ s_sowner s (nodeOf s i) <> Some i else In (nodeOf s i) seen.
Proof.
  intros s cached fits l seen R M. revert seen. assert (P : processing s = 0%nat) by (unfold processing; rewrite R; reflexivity).
  induction l as [|a r IH]; intros seen E i Hi; [destruct Hi |]. revert E. cbn [scan].
  destruct (if c_first (s_ctx s a) then cached a else None); [discriminate |]. cbv zeta. rewrite P, M. change (fst (c_key (s_ctx s a))) with (nodeOf s a).
  rewrite andb_false_r. change (0 <? 0)%nat with false. cbn [andb].
  destruct (isFrameState (modeOf (nodeOf s a))) eqn:FS; cbn [negb andb].
  - destruct (Z.eqb_spec (s_sframe s (nodeOf s a)) (-1)) as [F | F]; cbn [negb andb]; [discriminate |].
    destruct (match s_sowner s (nodeOf s a) with Some o => Nat.eqb o a | None => false end) eqn:O; cbn [negb]; [discriminate |].
    intros E. destruct Hi as [<- | Hi]; [| apply IH; assumption]. rewrite FS. split; [exact F |]. intros X. rewrite X, Nat.eqb_refl in O. discriminate.
  - destruct (existsb (Z.eqb (nodeOf s a)) seen) eqn:X; [| discriminate]. intros E. destruct Hi as [<- | Hi]; [| apply IH; assumption]. rewrite FS.
    apply existsb_exists in X. destruct X as (y & Y1 & Y2). apply Z.eqb_eq in Y2. rewrite Y2. exact Y1.
Qed.
Lemma waiting_task : forall s, inv s -> s_run s = [] -> forall n x, (rank (nodeOf s x) < n)%nat -> In x (s_live s) -> (0 < c_nreq (s_ctx s x))%nat ->
  exists t, In t (s_tasks s) /\ (rank (nodeOf s t) < rank (nodeOf s x))%nat.
Proof.
  intros s G R. induction n as [|n IH]; intros x Hn L Q; [lia |].
  assert (W : owedBy (s_ctx s) (s_live s) x <> 0%nat) by (generalize (g_count _ _ _ _ _ G x L (fun y => y)); change (countIn [] x) with 0%nat; lia).
  assert (J : exists j, In j (s_live s) /\ In x (c_notify (s_ctx s j))).
  { destruct (existsb (fun j => existsb (Nat.eqb x) (c_notify (s_ctx s j))) (s_live s)) eqn:E.
    - apply existsb_exists in E. destruct E as (j & A & B). apply existsb_exists in B. destruct B as (y & B & C). apply Nat.eqb_eq in C. subst y. exists j. auto.
    - exfalso. apply W, owedBy_zero. intros j A B. assert (X : existsb (fun j => existsb (Nat.eqb x) (c_notify (s_ctx s j))) (s_live s) = true); [| congruence].
      apply existsb_exists. exists j. split; [exact A |]. apply existsb_exists. exists x. split; [exact B | apply Nat.eqb_refl]. }
  destruct J as (j & A & B). destruct (g_wait _ _ _ _ _ G j x A B) as (_ & RK).
  destruct (c_nreq (s_ctx s j)) as [|q] eqn:E.
  - apply (g_zero _ _ _ _ _ G j A) in E. unfold places in E. rewrite R in E. cbn [map] in E. rewrite !in_app_iff in E. destruct E as [E | [E | [[] | []]]]; [exists j; auto |].
    destruct (g_alt _ _ _ _ _ G j E) as (X & _). rewrite (g_ext _ _ _ _ _ G j A X) in B. destruct B.
  - destruct (IH j ltac:(lia) A ltac:(lia)) as (t & T1 & T2). exists t. split; [exact T1 | lia].
Qed.
Lemma mutex_free : forall s, sinv s -> s_run s = [] -> forall nd, s_mutex s nd = false.
Proof. intros s H R nd. destruct (s_mutex s nd) eqn:E; [| reflexivity]. apply (v_mx _ _ H) in E. destruct E as (i & ar & A & _). rewrite R in A. destruct A. Qed.
Lemma scan_progress : forall s cached fits, inv s -> sinv s -> s_run s = [] -> scan modeOf s cached fits (s_tasks s) [] = None -> s_tasks s = [].
Proof.
  intros s cached fits G H R E. assert (B := scan_none s cached fits (s_tasks s) [] R (mutex_free s H R) E).
  assert (N : forall n i, (rank (nodeOf s i) < n)%nat -> ~ In i (s_tasks s)).
  { induction n as [|n IH]; intros i Hn Hi; [lia |].
    assert (Bi := B i Hi). destruct (isFrameState (modeOf (nodeOf s i))) eqn:FS; [| destruct Bi]. destruct Bi as (B1 & B2).
    destruct (s_sowner s (nodeOf s i)) as [o|] eqn:O; [| apply B1, (v_free _ _ H), O].
    destruct (v_own _ _ H _ _ O) as (O1 & O2 & O3 & O4 & _).
    assert (NT : ~ In o (s_tasks s)) by (intros X; assert (Y := B o X); rewrite O3, FS in Y; destruct Y as (_ & Y); apply Y, O).
    assert (NA : ~ In o (s_alt s)) by (intros X; destruct (g_alt _ _ _ _ _ G o X); congruence).
    assert (Q : (0 < c_nreq (s_ctx s o))%nat).
    { destruct (c_nreq (s_ctx s o)) eqn:X; [| lia]. apply (g_zero _ _ _ _ _ G o O2) in X. unfold places in X. rewrite R in X. cbn [map] in X. rewrite !in_app_iff in X. destruct X as [X | [X | [[] | []]]]; contradiction. }
    destruct (waiting_task s G R (S (rank (nodeOf s o))) o ltac:(lia) O2 Q) as (t & T1 & T2). rewrite O3 in T2. apply (IH t); [lia | exact T1]. }
  destruct (s_tasks s) as [|i l]; [reflexivity |]. exfalso. apply (N (S (rank (nodeOf s i))) i); [lia | left; reflexivity].
Qed.

(** ** There is somebody to run it *)
Record tinv (s : st) : Prop := mkT {
  t_max : (0 < s_max s)%nat;
  t_run : (List.length (s_run s) <= s_active s)%nat;
  t_work : s_tasks s <> [] -> (0 < s_active s + s_notified s)%nat;
  t_flush : s_flush s = true -> (0 < s_active s + s_notified s)%nat;
  t_alt : s_flush s = false -> s_alt s = [] }.
Lemma wake_pos : forall over s, (0 < s_max s)%nat -> (0 < s_active (wakeThread over s) + s_notified (wakeThread over s))%nat /\ (s_active s <= s_active (wakeThread over s))%nat.
Proof.
  intros over s M. unfold wakeThread. destruct (Nat.ltb_spec (s_active s) (s_max s)); [| lia].
  destruct (over && _) eqn:E; [apply andb_true_iff in E; destruct E as (_ & E); apply Nat.ltb_lt in E; lia |].
  destruct (Nat.eqb_spec (s_waiting s + s_notified s) 0); cbn [setThreads s_active s_notified]; [lia |]. destruct (Nat.eqb_spec (s_waiting s) 0); lia.
Qed.
Lemma wake_active : forall over s, (s_active s <= s_active (wakeThread over s))%nat.
Proof.
  intros over s. unfold wakeThread. destruct (_ <? _)%nat; [| lia]. destruct (_ && _); [lia |]. destruct (Nat.eqb _ _); cbn [setThreads s_active]; lia.
Qed.
Lemma tellAll_active : forall over i r ws s s', tellAll over i r ws s = Ok s' -> (s_active s <= s_active s')%nat.
Proof.
  induction ws as [|w l IH]; intros s s'; cbn [tellAll]; [intros E; apply Ok_inj in E; subst; lia |].
  unfold obind. destruct (tell over i r w s) as [s1| |] eqn:E; [|discriminate|discriminate]. intros E'. apply IH in E'.
  assert (A : (s_active s <= s_active s1)%nat); [| lia]. revert E. unfold tell. destruct (c_nreq (s_ctx s w)) as [|n]; [discriminate |]. intros X; apply Ok_inj in X. subst s1.
  destruct (Nat.eqb n 0); [| cbn; lia]. unfold queueTask. etransitivity; [| apply wake_active]. cbn [setTasks addHist setCtx s_active]. lia.
Qed.
Lemma startRequests_active : forall over w ks s s', startRequests over w ks s = Ok s' -> (s_active s <= s_active s')%nat.
Proof.
  induction ks as [|k l IH]; intros s s'; cbn [startRequests]; [intros E; apply Ok_inj in E; subst; lia |].
  unfold obind. destruct (startInternal over w k s) as [s1| |] eqn:E; [|discriminate|discriminate]. intros E'. apply IH in E'.
  assert (A : (s_active s <= s_active s1)%nat); [| lia]. revert E. unfold startInternal. destruct (snd k <? 0); [discriminate |]. destruct (findKey k (s_all s)); intros X; apply Ok_inj in X; subst s1; [cbn; lia |].
  unfold queueTask. etransitivity; [| apply wake_active]. cbn [setTasks newCtx setAll s_active]. lia.
Qed.
Lemma removeRun_length : forall i l, (List.length (removeRun i l) <= List.length l)%nat.
Proof. intros i l. unfold removeRun. induction l as [|e l IH]; [reflexivity |]. cbn. destruct (negb _); cbn; lia. Qed.
Lemma runCached_same : forall over i f s s', runCached over i f s = Ok s' -> s_run s' = s_run s /\ s_max s' = s_max s /\ s_flush s' = s_flush s /\ s_alt s' = s_alt s /\ (s_active s <= s_active s')%nat.
Proof.
  intros over i f s s'. unfold runCached. cbv zeta. unfold obind. destruct (tellAll _ _ _ _ _) as [s1| |] eqn:E; [|discriminate|discriminate]. intros X; apply Ok_inj in X. subst s'.
  assert (B := sortIfGrown_same (List.length (s_tasks (finish i (Frame f) (setTasks (removeTask i (s_tasks s)) s)))) s1). cbv zeta in B. destruct B as ((B1 & B2 & B3 & B4 & B5 & B6 & B7 & B8 & B9 & B10 & B11) & B12 & B13 & B14 & B15 & B16 & _).
  destruct (tellAll_same _ _ _ _ _ _ E) as ((A1 & A2 & A3 & A4 & A5 & A6 & A7 & A8 & A9 & A10 & A11) & _). apply tellAll_active in E.
  rewrite B1, B6, B7, B11, B16, A1, A6, A7, A11. unfold finish in *. cbn [retire s_ctx] in *. destruct (c_ext _); repeat split; exact E.
Qed.
Lemma complete_same : forall over i s s', complete over i s = Ok s' -> s_run s' = removeRun i (s_run s) /\ s_max s' = s_max s /\ s_flush s' = s_flush s /\ s_alt s' = s_alt s /\ (s_active s <= s_active s')%nat.
Proof.
  intros over i s s'. unfold complete. destruct (phaseOf i (s_run s)) as [[lk ar | f]|]; [discriminate | | discriminate]. cbv zeta. set (s0 := setRun _ s).
  assert (CE : forall r, obind (tellAll over i r (c_notify (s_ctx s i)) (finish i r s0)) (fun s' => Ok (sortIfGrown (List.length (s_tasks (finish i r s0))) s')) = Ok s' ->
    s_run s' = removeRun i (s_run s) /\ s_max s' = s_max s /\ s_flush s' = s_flush s /\ s_alt s' = s_alt s /\ (s_active s <= s_active s')%nat).
  { intros r. unfold obind. destruct (tellAll _ _ _ _ _) as [s1| |] eqn:E; [|discriminate|discriminate]. intros X; apply Ok_inj in X. subst s'.
    assert (B := sortIfGrown_same (List.length (s_tasks (finish i r s0))) s1). cbv zeta in B. destruct B as ((B1 & B2 & B3 & B4 & B5 & B6 & B7 & B8 & B9 & B10 & B11) & B12 & B13 & B14 & B15 & B16 & _).
    destruct (tellAll_same _ _ _ _ _ _ E) as ((A1 & A2 & A3 & A4 & A5 & A6 & A7 & A8 & A9 & A10 & A11) & _). apply tellAll_active in E.
    rewrite B1, B6, B7, B11, B16, A1, A6, A7, A11. unfold finish in *. cbn [retire s_ctx] in *. destruct (c_ext _); repeat split; exact E. }
  destruct (_ && _).
  - unfold obind. destruct (startRequests over i (c_reqs (s_ctx s i)) s0) as [s1| |] eqn:E; [|discriminate|discriminate]. intros X; apply Ok_inj in X. subst s'.
    destruct (startRequests_same _ _ _ _ _ E) as ((A1 & A2 & A3 & A4 & A5 & A6 & A7 & A8 & A9 & A10 & A11) & _). apply startRequests_active in E.
    unfold sortTasks. cbn [setTasks setCtx s_run s_max s_flush s_alt s_active]. rewrite A1, A6, A7, A11. repeat split; exact E.
  - destruct (c_err (s_ctx s i)); [apply CE |]. destruct f; [apply CE | discriminate].
Qed.
Lemma tinv_step : forall s s', inv s -> sinv s -> tinv s -> step modeOf rank s s' -> tinv s'.
Proof.
  intros s s' G V T S. destruct T. destruct S as [over k Hk | over cached fits i f s' FT SC RC | cached fits i FT SC | i x s' WB RT | over i s' CP | cached fits over FT MP | NT | WT | n Hn | AC].
  - unfold startExternal. cbv zeta. set (s1 := newCtx _ _). change (s_flush s1) with (s_flush s). destruct (s_flush s) eqn:FL.
    + constructor; cbn [setAlt s1 newCtx setCounter s_max s_run s_active s_tasks s_notified s_flush s_alt]; auto. rewrite FL. discriminate.
    + set (s2 := setTasks _ s1). destruct (wake_pos over s2 t_max0) as (W1 & W2). destruct (wake_same over s2) as ((A1 & A2 & A3 & A4 & A5 & A6 & A7 & A8 & A9 & A10 & A11) & _).
      change (s_active s2) with (s_active s) in W2. constructor; rewrite ?A1, ?A6, ?A7, ?A11; auto. change (s_run s2) with (s_run s). lia.
  - destruct (runCached_same _ _ _ _ _ RC) as (A1 & A2 & A3 & A4 & A5). unfold freeThread in FT. apply Nat.ltb_lt in FT. constructor; rewrite ?A1, ?A2, ?A3, ?A4; auto; lia.
  - unfold freeThread in FT. apply Nat.ltb_lt in FT. set (s' := take modeOf i s).
    assert (E : s_run s' = s_run s ++ [(i, Calling (useSerialLock (modeOf (fst (c_key (s_ctx s i)))) (c_first (s_ctx s i))) (reasonOf (s_ctx s i)))] /\ s_max s' = s_max s /\ s_flush s' = s_flush s /\ s_alt s' = s_alt s /\ s_active s' = s_active s /\ s_notified s' = s_notified s).
    { unfold s', take. cbv zeta. destruct (useSerialLock _ _); [destruct (_ && _) |]; repeat split. }
    destruct E as (E1 & E2 & E3 & E4 & E5 & E6). constructor; rewrite ?E2, ?E3, ?E4, ?E5, ?E6; auto; try lia. rewrite E1, app_length. cbn [List.length]. lia.
  - assert (E : List.length (s_run s') = List.length (s_run s) /\ s_max s' = s_max s /\ s_flush s' = s_flush s /\ s_alt s' = s_alt s /\ s_active s' = s_active s /\ s_notified s' = s_notified s /\ s_tasks s' = s_tasks s).
    { revert RT. unfold returns. destruct (phaseOf i (s_run s)) as [[lk ar | f0]|]; [|discriminate|discriminate]. cbv zeta. destruct (match _ with Some _ => _ | None => _ end); [discriminate |].
      intros X; apply Ok_inj in X. subst s'. destruct x, lk; try destruct (_ && _); repeat split; cbn [setSerial setRun setCtx addOwn s_run]; unfold setPhase; apply map_length. }
    destruct E as (E1 & E2 & E3 & E4 & E5 & E6 & E7). constructor; rewrite ?E1, ?E2, ?E3, ?E4, ?E5, ?E6, ?E7; auto.
  - destruct (complete_phase _ _ _ _ CP) as (f & P & _). apply phaseOf_In in P. destruct (complete_same _ _ _ _ CP) as (A1 & A2 & A3 & A4 & A5).
    assert (L : (0 < List.length (s_run s))%nat) by (destruct (s_run s); [destruct P | cbn; lia]). assert (RL := removeRun_length i (s_run s)).
    constructor; rewrite ?A1, ?A2, ?A3, ?A4; auto; lia.
  - unfold freeThread in FT. apply Nat.ltb_lt in FT.
    assert (PR : s_run s = [] -> scan modeOf s cached fits (s_tasks s) [] = None -> s_tasks s = []) by (intros A B; apply (scan_progress s cached fits); assumption).
    assert (LR : List.length (s_run s) = 0%nat -> s_run s = []) by (destruct (s_run s); [reflexivity | discriminate]).
    assert (MP' : scan modeOf s cached fits (s_tasks s) [] = None \/ (s_max s < s_active s)%nat \/ (1 < s_active s)%nat).
    { unfold mayPark in MP. destruct (scan modeOf s cached fits (s_tasks s) []); [right | left; reflexivity]. apply orb_true_iff in MP. destruct MP as [MP | MP]; [left; apply Nat.ltb_lt, MP | right; apply andb_true_iff in MP; apply Nat.ltb_lt, MP]. }
    unfold park. destruct (s_flush s && Nat.eqb (s_active s) 1) eqn:E.
    + apply andb_true_iff in E. destruct E as (E1 & E2). apply Nat.eqb_eq in E2.
      constructor; cbn [setThreads setFlush setAlt setTasks s_max s_run s_active s_notified s_tasks s_flush s_alt]; auto; try lia. intros _. apply PR; [apply LR; lia |]. destruct MP' as [X | X]; [exact X | lia].
    + constructor; cbn [setThreads s_max s_run s_active s_notified s_tasks s_flush s_alt]; auto; [lia | |].
      * intros X. destruct (Nat.eq_dec (List.length (s_run s)) 0) as [Y | Y]; [| lia]. destruct MP' as [M | M]; [destruct (X (PR (LR Y) M)) | lia].
      * intros X. rewrite X in E. cbn [andb] in E. apply Nat.eqb_neq in E. lia.
  - unfold wakes. destruct (Nat.leb_spec (s_max s) (s_active s)); constructor; cbn [setThreads s_max s_run s_active s_notified s_tasks s_flush s_alt]; auto; lia.
  - constructor; cbn [setThreads s_max s_run s_active s_notified s_tasks s_flush s_alt]; auto; lia.
  - constructor; cbn [setMax s_max s_run s_active s_notified s_tasks s_flush s_alt]; auto; lia.
  - constructor; cbn [setFlush s_max s_run s_active s_notified s_tasks s_flush s_alt]; auto; [lia | discriminate].
Qed.
Lemma tinv_start : forall n, (0 < n)%nat -> tinv (start n).
Proof. intros n H. constructor; cbn; auto; [intros []; reflexivity | discriminate]. Qed.

Lemma reachable_inv : forall s, reachable modeOf rank s -> inv s /\ sinv s /\ tinv s.
Proof.
  induction 1 as [n Hn | s s' R (G & V & T) S].
  - split; [apply inv_start | split; [apply sinv_start | apply tinv_start, Hn]].
  - split; [| split; [eapply sinv_step | eapply tinv_step]; eassumption]. refine (inv_step modeOf rank s s' G _ (t_max _ T) S).
    intros FL AC FT cached fits SC. unfold freeThread in FT. apply Nat.ltb_lt in FT. apply (scan_progress s cached fits G V); [| exact SC]. destruct (s_run s); [reflexivity | cbn [List.length] in FT; lia].
Qed.
End Threads.
