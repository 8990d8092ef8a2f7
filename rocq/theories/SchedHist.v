(** What every context is told and how it ends; the order of the task list. *)
From Coq Require Import ZArith List Bool Arith Lia Permutation Sorting.Sorted.
From Verif Require Import Common SchedSpec Sched SchedInv SchedStep SchedSerial SchedThreads.
Import ListNotations.
Open Scope Z_scope.

Lemma received_app : forall w a b, received w (a ++ b) = received w a ++ received w b.
Proof. intros. unfold received. rewrite filter_app, map_app. reflexivity. Qed.
Lemma sentBy_app : forall w a b, sentBy w (a ++ b) = sentBy w a ++ sentBy w b.
Proof. intros. unfold sentBy. rewrite filter_app, map_app. reflexivity. Qed.
Lemma framesFor_app : forall k w a b, framesFor k w (a ++ b) = framesFor k w a ++ framesFor k w b.
Proof. intros. unfold framesFor. apply flat_map_app. Qed.
Lemma framesFor_ext : forall k k' w l, (forall e, In e l -> k' (fst (fst e)) = k (fst (fst e))) -> framesFor k' w l = framesFor k w l.
Proof.
  intros k k' w l H. unfold framesFor. induction l as [|e l IH]; [reflexivity |]. cbn [flat_map]. rewrite IH by (intros; apply H; right; assumption). rewrite (H e (or_introl eq_refl)). reflexivity.
Qed.
Lemma firstError_app : forall a b, firstError (a ++ b) = match firstError a with Some m => Some m | None => firstError b end.
Proof. induction a as [|[f | m] a IH]; intros b; [reflexivity | apply IH | reflexivity]. Qed.
Lemma received_none : forall w l, (forall e, In e l -> snd (fst e) <> w) -> received w l = [].
Proof.
  intros w l H. unfold received. induction l as [|e l IH]; [reflexivity |]. cbn [filter]. destruct (Nat.eqb_spec (snd (fst e)) w) as [E | E]; [destruct (H e (or_introl eq_refl) E) |].
  apply IH. intros x Hx. apply H. right. exact Hx.
Qed.
Lemma framesFor_none : forall k w l, (forall e, In e l -> snd (fst e) <> w) -> framesFor k w l = [].
Proof.
  intros k w l H. unfold framesFor. induction l as [|e l IH]; [reflexivity |]. cbn [flat_map]. destruct (Nat.eqb_spec (snd (fst e)) w) as [E | E]; [destruct (H e (or_introl eq_refl) E) |].
  apply IH. intros x Hx. apply H. right. exact Hx.
Qed.
Lemma sentBy_none : forall i l, (forall e, In e l -> fst (fst e) <> i) -> sentBy i l = [].
Proof.
  intros w l H. unfold sentBy. induction l as [|e l IH]; [reflexivity |]. cbn [filter]. destruct (Nat.eqb_spec (fst (fst e)) w) as [E | E]; [destruct (H e (or_introl eq_refl) E) |].
  apply IH. intros x Hx. apply H. right. exact Hx.
Qed.
Lemma sentBy_told : forall i r ws, sentBy i (map (fun w => (i, w, r)) ws) = map (fun w => (w, r)) ws.
Proof. intros i r ws. unfold sentBy. induction ws as [|w l IH]; [reflexivity |]. cbn [map filter fst snd]. rewrite Nat.eqb_refl. cbn [map fst snd]. rewrite IH. reflexivity. Qed.

Lemma tellAll_told : forall over i r ws s s', tellAll over i r ws s = Ok s' ->
  (forall j, c_nreq (s_ctx s j) = 0%nat -> ~ In j ws) /\
  (forall j, c_err (s_ctx s j) = firstError (received j (s_hist s)) -> c_err (s_ctx s' j) = firstError (received j (s_hist s'))) /\
  (forall j, c_avail (s_ctx s j) = framesFor (fun p => c_key (s_ctx s p)) j (s_hist s) -> c_avail (s_ctx s' j) = framesFor (fun p => c_key (s_ctx s' p)) j (s_hist s')).
Proof.
  induction ws as [|w l IH]; intros s s'; cbn [tellAll].
  - intros E; apply Ok_inj in E; subst s'. auto.
  - unfold obind. destruct (tell over i r w s) as [s1| |] eqn:E; [|discriminate|discriminate]. intros E'.
    destruct (tell_same _ _ _ _ _ _ E) as (A1 & A2 & A3 & A4 & A5 & A6 & A7 & A8 & A9 & A10 & _). destruct (IH _ _ E') as (B1 & B2 & B3). split; [| split].
    + intros j Hj [-> | X]; [lia |]. destruct (Nat.eq_dec j w) as [-> | N]; [lia |]. apply (B1 j); [rewrite (A7 j N); exact Hj | exact X].
    + intros j Hj. apply B2. rewrite A5, received_app, firstError_app. unfold received at 2. cbn [filter fst snd]. destruct (Nat.eqb_spec w j) as [-> | N].
      * cbn [map snd]. rewrite A9, <- Hj. destruct r as [f | m]; cbn [firstError]; destruct (c_err (s_ctx s j)); reflexivity.
      * rewrite (A7 j) by auto. cbn [map firstError]. rewrite <- Hj. destruct (c_err (s_ctx s j)); reflexivity.
    + intros j Hj. apply B3. rewrite A5, framesFor_app. rewrite (framesFor_ext (fun p => c_key (s_ctx s p)) _ j (s_hist s)) by (intros e _; apply (A6 (fst (fst e)))).
      rewrite <- Hj. unfold framesFor. cbn [flat_map fst snd]. rewrite app_nil_r. destruct (A6 i) as (K & _). rewrite K. destruct (Nat.eqb_spec w j) as [-> | N]; [exact A10 | rewrite (A7 j) by auto; rewrite app_nil_r; reflexivity].
Qed.

Section Hist.
Variable modeOf : Z -> fmode.
Variable rank : Z -> nat.
Notation inv := (inv rank).
Definition keyIn (s : st) (p : nat) : key := c_key (s_ctx s p).
Record hinv (s : st) : Prop := mkH {
  h_nd : NoDup (map fst (s_done s));
  h_live : forall i, In i (s_live s) <-> (i < s_next s)%nat /\ ~ In i (map fst (s_done s));
  h_lt : forall i, In i (map fst (s_done s)) -> (i < s_next s)%nat;
  h_calls : s_calls s = filter (fun e => c_ext (s_ctx s (fst e))) (s_done s);
  h_prod : forall i w r, In (i, w, r) (s_hist s) -> In (i, r) (s_done s) /\ (w < s_next s)%nat;
  h_told : forall i r, In (i, r) (s_done s) -> sentBy i (s_hist s) = map (fun w => (w, r)) (c_notify (s_ctx s i));
  h_own : forall i m, In (i, m) (s_own s) -> (i < s_next s)%nat;
  h_err : forall i, In i (s_live s) -> c_err (s_ctx s i) = firstError (received i (s_hist s)) \/
          (firstError (received i (s_hist s)) = None /\ exists m f, c_err (s_ctx s i) = Some m /\ In (i, m) (s_own s) /\ In (i, Returned f) (s_run s));
  h_avail : forall i, In i (s_live s) -> c_avail (s_ctx s i) = framesFor (keyIn s) i (s_hist s);
  h_res : forall w r, In (w, r) (s_done s) ->
          match firstError (received w (s_hist s)) with Some m => r = Failed m | None => (exists f, r = Frame f) \/ (exists m, r = Failed m /\ In (w, m) (s_own s)) end }.

Definition mayEnd (s : st) (i : nat) (r : res) : Prop :=
  match firstError (received i (s_hist s)) with Some m => r = Failed m | None => (exists f, r = Frame f) \/ (exists m, r = Failed m /\ In (i, m) (s_own s)) end.
Lemma finish_facts : forall i r s, s_next (finish i r s) = s_next s /\ s_hist (finish i r s) = s_hist s /\ s_own (finish i r s) = s_own s /\ s_done (finish i r s) = s_done s ++ [(i, r)] /\
  s_calls (finish i r s) = s_calls s ++ (if c_ext (s_ctx s i) then [(i, r)] else []).
Proof. intros. unfold finish. cbn [retire s_ctx]. destruct (c_ext (s_ctx s i)); cbn; rewrite ?app_nil_r; repeat split. Qed.
(** [s1]: [s] without the context in its list; [s2]: everybody told. *)
Lemma hinv_ends : forall over i r s s1 s2 n, inv s -> hinv s -> In i (s_live s) -> ginv rank [i] 0 [] s1 -> mayEnd s i r ->
  s_ctx s1 = s_ctx s -> s_next s1 = s_next s -> s_live s1 = s_live s -> s_done s1 = s_done s -> s_calls s1 = s_calls s -> s_hist s1 = s_hist s -> s_own s1 = s_own s ->
  (forall j p, j <> i -> In (j, p) (s_run s) -> In (j, p) (s_run s1)) ->
  tellAll over i r (c_notify (s_ctx s i)) (finish i r s1) = Ok s2 -> hinv (sortIfGrown n s2).
Proof.
  intros over i r s s1 s2 n G H IL G1 ME E1 E2 E3 E4 E5 E6 E7 ER T.
  destruct (tellAll_same _ _ _ _ _ _ T) as ((A1 & A2 & A3 & A4 & A5 & A6 & A7 & A8 & A9 & A10 & A11) & B1 & B2 & B3 & B4 & B5 & B6 & _).
  destruct (tellAll_told _ _ _ _ _ _ T) as (C1 & C2 & C3).
  destruct (finish_facts i r s1) as (F1 & F2 & F3 & F4 & F5). destruct (finish_same i r s1) as (F6 & _ & _ & _ & F7 & F8 & _).
  rewrite F1, E2 in B1. rewrite F7, E3 in B2. rewrite F2, E6 in B4. rewrite F4, E4 in A9. rewrite F5, E5, E1 in A8. rewrite F3, E7 in A10. rewrite F6 in A1.
  assert (K : forall j, c_key (s_ctx s2 j) = c_key (s_ctx s j)) by (intros j; destruct (B5 j) as (X & _); rewrite X, F8, E1; reflexivity).
  assert (X : forall j, c_ext (s_ctx s2 j) = c_ext (s_ctx s j)) by (intros j; destruct (B5 j) as (_ & X & _); rewrite X, F8, E1; reflexivity).
  assert (N : forall j, c_notify (s_ctx s2 j) = c_notify (s_ctx s j)) by (intros j; destruct (B5 j) as (_ & _ & _ & _ & Y & _); rewrite Y, F8, E1; reflexivity).
  assert (ND : ~ In i (map fst (s_done s))) by (apply (h_live _ H) in IL; tauto).
  assert (WL : forall w, In w (c_notify (s_ctx s i)) -> In w (s_live s) /\ w <> i).
  { intros w Hw. destruct (g_wait _ _ _ _ _ G i w IL Hw) as (Y & Z). split; [exact Y | intros ->; lia]. }
  assert (RV : forall w, ~ In w (c_notify (s_ctx s i)) -> received w (s_hist s2) = received w (s_hist s)).
  { intros w Hw. rewrite B4, received_app, (received_none w (map _ _)), app_nil_r; [reflexivity |]. intros e He. apply in_map_iff in He. destruct He as (w' & <- & Hw'). cbn. intros ->. contradiction. }
  assert (G2 := sortIfGrown_same n s2). cbv zeta in G2. destruct G2 as ((S1 & S2 & S3 & S4 & S5 & S6 & S7 & S8 & S9 & S10 & S11) & S12 & S13 & S14 & S15 & _).
  constructor; unfold keyIn in *; rewrite ?S1, ?S8, ?S9, ?S10, ?S12, ?S13, ?S14, ?S15, ?B1, ?B2, ?A9, ?A10.
  - rewrite map_app. apply (Permutation_NoDup (Permutation_cons_append _ _)). constructor; [exact ND | apply (h_nd _ H)].
  - intros j. rewrite In_removeTask, (h_live _ H), map_app, in_app_iff. cbn [map fst In]. split; [intros ((P & Q) & R); split; [exact P |]; intros [Y | [Y | []]]; [contradiction | congruence] | intros (P & Q); split; [split; [exact P |] |]; intros Y; apply Q; auto].
  - intros j. rewrite map_app, in_app_iff. cbn [map fst In]. intros [Y | [<- | []]]; [apply (h_lt _ H), Y | apply (h_live _ H), IL].
  - rewrite A8, (h_calls _ H), filter_app. rewrite (filter_ext (fun e : nat * res => c_ext (s_ctx s2 (fst e))) (fun e => c_ext (s_ctx s (fst e)))) by (intros; apply X). f_equal. cbn [filter fst]. rewrite X. reflexivity.
  - intros j w r' Hj. rewrite B4 in Hj. apply in_app_iff in Hj. destruct Hj as [Hj | Hj].
    + destruct (h_prod _ H j w r' Hj) as (P & Q). split; [apply in_or_app; left; exact P | exact Q].
    + apply in_map_iff in Hj. destruct Hj as (w' & Y & Z). injection Y as <- <- <-. split; [apply in_or_app; right; left; reflexivity |]. apply (g_lt _ _ _ _ _ G), WL, Z.
  - intros j r' Hj. rewrite B4, sentBy_app, N. apply in_app_iff in Hj. destruct Hj as [Hj | [Y | []]].
    + rewrite (h_told _ H j r' Hj). rewrite (sentBy_none j (map _ _)), app_nil_r; [reflexivity |]. intros e He. apply in_map_iff in He. destruct He as (w & <- & _). cbn. intros ->. apply ND, in_map_iff. exists (j, r'). auto.
    + injection Y as <- <-. rewrite sentBy_told, (sentBy_none i (s_hist s)); [reflexivity |]. intros [[p q] r'] He. cbn. intros ->. apply ND, in_map_iff. exists (i, r'). split; [reflexivity | apply (h_prod _ H _ _ _ He)].
  - apply (h_own _ H).
  - intros j Hj. apply In_removeTask in Hj. destruct Hj as (Hj & NE). destruct (h_err _ H j Hj) as [P | (P & m & f & Q & R & S)].
    + left. apply C2. rewrite F8, F2, E1, E6. exact P.
    + right. assert (Z0 : c_nreq (s_ctx s j) = 0%nat) by (apply (run_nreq rank s j G), in_map_iff; exists (j, Returned f); auto).
      rewrite RV; [| rewrite <- F8 in E1; apply C1; rewrite E1; exact Z0]. split; [exact P |]. exists m, f. rewrite B6 by (rewrite F8, E1; exact Z0). rewrite F8, E1, A1. auto.
  - intros j Hj. apply In_removeTask in Hj. destruct Hj as (Hj & NE). apply C3. rewrite F8, F2, E1, E6. apply (h_avail _ H j Hj).
  - intros w r' Hw. apply in_app_iff in Hw. assert (NW : ~ In w (c_notify (s_ctx s i))).
    { intros Y. destruct (WL w Y) as (Z1 & Z2). apply (h_live _ H) in Z1. destruct Hw as [Hw | [Hw | []]]; [apply Z1, in_map_iff; exists (w, r'); auto | injection Hw as <- _; congruence]. }
    rewrite (RV w NW). destruct Hw as [Hw | [Hw | []]]; [apply (h_res _ H w r' Hw) | injection Hw as <- <-; exact ME].
Qed.

(** Contexts join, contexts change. *)
Lemma hinv_grow : forall s s', hinv s -> (forall j, In j (s_live s) -> (j < s_next s)%nat) -> s_done s' = s_done s -> s_calls s' = s_calls s -> s_hist s' = s_hist s -> s_own s' = s_own s -> (s_next s <= s_next s')%nat ->
  (forall j, In j (s_live s') <-> In j (s_live s) \/ (s_next s <= j < s_next s')%nat) ->
  (forall j, (j < s_next s)%nat -> c_key (s_ctx s' j) = c_key (s_ctx s j) /\ c_ext (s_ctx s' j) = c_ext (s_ctx s j)) ->
  (forall j, In j (map fst (s_done s)) -> c_notify (s_ctx s' j) = c_notify (s_ctx s j)) ->
  (forall j, In j (s_live s) -> c_err (s_ctx s' j) = c_err (s_ctx s j) /\ c_avail (s_ctx s' j) = c_avail (s_ctx s j)) ->
  (forall j, (s_next s <= j < s_next s')%nat -> c_err (s_ctx s' j) = None /\ c_avail (s_ctx s' j) = []) ->
  (forall j m, In j (s_live s) -> c_err (s_ctx s j) = Some m -> firstError (received j (s_hist s)) = None -> forall f, In (j, Returned f) (s_run s) -> In (j, Returned f) (s_run s')) -> hinv s'.
Proof.
  intros s s' H LT E1 E2 E3 E4 NX L K N O C R.
  assert (FR : forall j, (s_next s <= j)%nat -> forall e, In e (s_hist s) -> snd (fst e) <> j) by (intros j Hj [[p w] r] He; apply (h_prod _ H) in He; cbn; lia).
  constructor; rewrite ?E1, ?E2, ?E3, ?E4.
  - apply (h_nd _ H).
  - intros j. rewrite L, (h_live _ H). split; [intros [(P & Q) | P]; [split; [lia | exact Q] | split; [lia | intros Y; apply (h_lt _ H) in Y; lia]] |].
    intros (P & Q). destruct (Nat.lt_ge_cases j (s_next s)); [left; auto | right; lia].
  - intros j Hj. apply (h_lt _ H) in Hj. lia.
  - rewrite (h_calls _ H). apply filter_ext_in. intros [j r] Hj. cbn [fst]. symmetry. apply K. apply (h_lt _ H), in_map_iff. exists (j, r). auto.
  - intros i w r Hi. destruct (h_prod _ H i w r Hi). split; [assumption | lia].
  - intros i r Hi. rewrite (h_told _ H i r Hi), N; [reflexivity |]. apply in_map_iff. exists (i, r). auto.
  - intros i m Hi. apply (h_own _ H) in Hi. lia.
  - intros j Hj. apply L in Hj. destruct Hj as [Hj | Hj].
    + destruct (O j Hj) as (-> & _). destruct (h_err _ H j Hj) as [P | (P & m & f & Q1 & Q2 & Q3)]; [left; exact P | right; split; [exact P |]]. exists m, f. repeat split; auto. eapply R; eassumption.
    + left. destruct (C j Hj) as (-> & _). rewrite received_none; [reflexivity | apply FR; lia].
  - assert (KE : forall j, framesFor (keyIn s') j (s_hist s) = framesFor (keyIn s) j (s_hist s)).
    { intros j. apply framesFor_ext. intros [[p w] r] He. cbn [fst]. apply K, (h_lt _ H), in_map_iff. exists (p, r). split; [reflexivity | apply (h_prod _ H _ _ _ He)]. }
    intros j Hj. rewrite KE. apply L in Hj. destruct Hj as [Hj | Hj].
    + destruct (O j Hj) as (_ & ->). apply (h_avail _ H j Hj).
    + destruct (C j Hj) as (_ & ->). rewrite framesFor_none; [reflexivity | apply FR; lia].
  - apply (h_res _ H).
Qed.
Lemma mayEnd_ok : forall s i m, hinv s -> In i (s_live s) -> c_err (s_ctx s i) = Some m -> mayEnd s i (Failed m).
Proof.
  intros s i m H IL E. unfold mayEnd. destruct (h_err _ H i IL) as [P | (P & m' & f & Q1 & Q2 & Q3)].
  - rewrite E in P. rewrite <- P. reflexivity.
  - rewrite P. right. exists m. rewrite E in Q1. injection Q1 as <-. auto.
Qed.
Lemma mayEnd_none : forall s i f, hinv s -> In i (s_live s) -> c_err (s_ctx s i) = None -> mayEnd s i (Frame f).
Proof.
  intros s i f H IL E. unfold mayEnd. destruct (h_err _ H i IL) as [P | (P & m' & f' & Q1 & Q2 & Q3)]; [| congruence]. rewrite E in P. rewrite <- P. left. exists f. reflexivity.
Qed.
Lemma hinv_step : forall s s', inv s -> hinv s -> step modeOf rank s s' -> hinv s'.
Proof.
  intros s s' G H S. assert (LT := g_lt _ _ _ _ _ G).
  assert (DL : forall j, In j (map fst (s_done s)) -> ~ In j (s_live s)) by (intros j Hj X; apply (h_live _ H) in X; tauto).
  assert (SAME : forall s', s_ctx s' = s_ctx s -> s_next s' = s_next s -> s_live s' = s_live s -> s_done s' = s_done s -> s_calls s' = s_calls s -> s_hist s' = s_hist s -> s_own s' = s_own s -> s_run s' = s_run s -> hinv s').
  { intros s2 E1 E2 E3 E4 E5 E6 E7 E8. apply (hinv_grow s); auto; rewrite ?E1, ?E2, ?E3, ?E8; auto; try (intros; lia). intros j. split; [auto | intros [A | A]; [exact A | lia]]. }
  destruct S as [over k Hk | over cached fits i f s' FT SC RC | cached fits i FT SC | i x s' WB RT | over i s' CP | cached fits over FT MP | NT | WT | n Hn | AC].
  - unfold startExternal. cbv zeta. set (s1 := newCtx _ _).
    assert (F : forall s', s_ctx s' = s_ctx s1 -> s_next s' = S (s_next s) -> s_live s' = s_live s ++ [s_next s] -> s_done s' = s_done s -> s_calls s' = s_calls s -> s_hist s' = s_hist s -> s_own s' = s_own s -> s_run s' = s_run s -> hinv s').
    { intros s2 E1 E2 E3 E4 E5 E6 E7 E8. apply (hinv_grow s); auto; rewrite ?E2, ?E8; auto; try lia.
      - intros j. rewrite E3, in_app_iff. cbn [In]. split; [intros [A | [A | []]]; [left; exact A | right; lia] | intros [A | A]; [left; exact A | right; left; lia]].
      - intros j Hj. rewrite E1. cbn [s1 newCtx s_ctx setCounter s_next]. rewrite upd_other by lia. auto.
      - intros j Hj. apply (h_lt _ H) in Hj. rewrite E1. cbn [s1 newCtx s_ctx setCounter s_next]. rewrite upd_other by lia. reflexivity.
      - intros j Hj. apply LT in Hj. rewrite E1. cbn [s1 newCtx s_ctx setCounter s_next]. rewrite upd_other by lia. auto.
      - intros j Hj. replace j with (s_next s) by lia. rewrite E1. cbn [s1 newCtx s_ctx setCounter s_next]. rewrite upd_same. split; reflexivity. }
    destruct (s_flush s1); [apply F; reflexivity |]. match goal with |- hinv (wakeThread _ ?x) => destruct (wake_same over x) as ((W1 & W2 & W3 & W4 & W5 & W6 & W7 & W8 & W9 & W10 & W11) & W12 & W13 & W14 & W15 & _) end.
    apply F; rewrite ?W1, ?W8, ?W9, ?W10, ?W12, ?W13, ?W14, ?W15; reflexivity.
  - assert (Hi := scan_In _ _ _ _ _ _ _ _ SC). assert (FI := scan_cached_first _ _ _ _ _ _ _ _ SC). assert (IL := task_live rank s i G Hi).
    revert RC. unfold runCached. cbv zeta. set (s1 := setTasks _ s). rewrite finish_ctx. change (s_ctx s1 i) with (s_ctx s i). unfold obind.
    destruct (tellAll over i (Frame f) (c_notify (s_ctx s i)) (finish i (Frame f) s1)) as [s2| |] eqn:E; [|discriminate|discriminate]. intros X; apply Ok_inj in X. subst s'.
    eapply (hinv_ends over i (Frame f) s s1 s2); eauto; [apply ginv_untask; assumption |]. apply mayEnd_none; auto. apply (g_first _ _ _ _ _ G i IL FI).
  - assert (Hi := scan_In _ _ _ _ _ _ _ _ SC). set (s' := take modeOf i s).
    assert (E : s_ctx s' = upd (s_ctx s) i (setFirst (s_ctx s i)) /\ s_next s' = s_next s /\ s_live s' = s_live s /\ s_done s' = s_done s /\ s_calls s' = s_calls s /\ s_hist s' = s_hist s /\ s_own s' = s_own s /\ exists p, s_run s' = s_run s ++ [(i, p)]).
    { unfold s', take. cbv zeta. destruct (useSerialLock _ _); [destruct (_ && _) |]; repeat split; eexists; reflexivity. }
    destruct E as (E1 & E2 & E3 & E4 & E5 & E6 & E7 & (p & E8)). apply (hinv_grow s); auto; rewrite ?E1, ?E2, ?E3, ?E8; auto; try lia; try (intros; lia).
    + intros j. split; [auto | intros [A | A]; [exact A | lia]].
    + intros j _. unfold upd. destruct (Nat.eqb j i) eqn:X; [apply Nat.eqb_eq in X; subst |]; split; reflexivity.
    + intros j _. unfold upd. destruct (Nat.eqb j i) eqn:X; [apply Nat.eqb_eq in X; subst |]; reflexivity.
    + intros j _. unfold upd. destruct (Nat.eqb j i) eqn:X; [apply Nat.eqb_eq in X; subst |]; split; reflexivity.
    + intros j m _ _ _ f Hf. apply in_or_app. left. exact Hf.
  - revert RT. unfold returns. destruct (phaseOf i (s_run s)) as [[lk ar | f0]|] eqn:P; [|discriminate|discriminate].
    cbv zeta. set (f := match x with RFrame f => Some f | _ => None end). set (c := mkC _ _ _ _ _ _ _ _ _).
    destruct (match f with Some _ => hasError c | None => false end); [discriminate |]. intros E; apply Ok_inj in E; subst s'.
    assert (IR := phaseOf_fst _ _ _ P). assert (IL := run_live rank _ _ G IR).
    assert (ER : c_err (s_ctx s i) = firstError (received i (s_hist s))).
    { destruct (h_err _ H i IL) as [Q | (_ & m & f' & _ & _ & Q)]; [exact Q |]. apply (In_phaseOf _ _ _ (inv_runs rank _ G)) in Q. rewrite P in Q. discriminate. }
    set (s' := if lk then _ else _).
    assert (E1 : s_ctx s' = upd (s_ctx s) i c) by (unfold s'; destruct x, lk; try destruct (_ && _); reflexivity).
    assert (E2 : s_next s' = s_next s) by (unfold s'; destruct x, lk; try destruct (_ && _); reflexivity).
    assert (E3 : s_live s' = s_live s) by (unfold s'; destruct x, lk; try destruct (_ && _); reflexivity).
    assert (E4 : s_done s' = s_done s) by (unfold s'; destruct x, lk; try destruct (_ && _); reflexivity).
    assert (E5 : s_calls s' = s_calls s) by (unfold s'; destruct x, lk; try destruct (_ && _); reflexivity).
    assert (E6 : s_hist s' = s_hist s) by (unfold s'; destruct x, lk; try destruct (_ && _); reflexivity).
    assert (E7 : s_own s' = s_own s ++ match x with RError m => [(i, m)] | _ => [] end) by (unfold s'; destruct x, lk; try destruct (_ && _); cbn; rewrite ?app_nil_r; reflexivity).
    assert (E8 : s_run s' = setPhase i (Returned f) (s_run s)) by (unfold s'; destruct x, lk; try destruct (_ && _); reflexivity).
    clearbody s'.
    assert (K : forall j, c_key (s_ctx s' j) = c_key (s_ctx s j)) by (intros j; rewrite E1; unfold upd; destruct (Nat.eqb j i) eqn:X; [apply Nat.eqb_eq in X; subst; reflexivity | reflexivity]).
    assert (X : forall j, c_ext (s_ctx s' j) = c_ext (s_ctx s j)) by (intros j; rewrite E1; unfold upd; destruct (Nat.eqb j i) eqn:X; [apply Nat.eqb_eq in X; subst; reflexivity | reflexivity]).
    assert (N : forall j, c_notify (s_ctx s' j) = c_notify (s_ctx s j)) by (intros j; rewrite E1; unfold upd; destruct (Nat.eqb j i) eqn:Y; [apply Nat.eqb_eq in Y; subst; reflexivity | reflexivity]).
    assert (V : forall j, c_avail (s_ctx s' j) = c_avail (s_ctx s j)) by (intros j; rewrite E1; unfold upd; destruct (Nat.eqb j i) eqn:Y; [apply Nat.eqb_eq in Y; subst; reflexivity | reflexivity]).
    constructor; unfold keyIn; rewrite ?E2, ?E3, ?E4, ?E5, ?E6, ?E8.
    + apply (h_nd _ H).
    + apply (h_live _ H).
    + apply (h_lt _ H).
    + rewrite (h_calls _ H). apply filter_ext. intros e. symmetry. apply X.
    + apply (h_prod _ H).
    + intros j r Hj. rewrite N. apply (h_told _ H), Hj.
    + intros j m Hj. rewrite E7 in Hj. apply in_app_iff in Hj. destruct Hj as [Hj | Hj]; [apply (h_own _ H j m Hj) |]. destruct x; [destruct Hj | destruct Hj as [Y | []] | destruct Hj]. injection Y as <- _. apply LT, IL.
    + intros j Hj. destruct (Nat.eq_dec j i) as [-> | NE].
      * rewrite E1, upd_same. cbn [c c_err]. destruct x as [fr | m | ks]; [left; exact ER | | left; exact ER].
        rewrite <- ER. destruct (c_err (s_ctx s i)) as [m'|] eqn:CE; [left; reflexivity |]. right. split; [reflexivity |]. exists m, f. split; [reflexivity |]. rewrite E7. split; [apply in_or_app; right; left; reflexivity |]. apply In_setPhase. right. auto.
      * rewrite E1, upd_other by exact NE. destruct (h_err _ H j Hj) as [Q | (Q & m & f' & Q1 & Q2 & Q3)]; [left; exact Q | right; split; [exact Q |]]. exists m, f'. rewrite E7. repeat split; [exact Q1 | apply in_or_app; left; exact Q2 | apply In_setPhase; left; auto].
    + intros j Hj. rewrite V, (h_avail _ H j Hj). apply framesFor_ext. intros e _. unfold keyIn. symmetry. apply K.
    + intros w r Hw. assert (RS := h_res _ H w r Hw). cbv beta in RS. destruct (firstError (received w (s_hist s))); [exact RS |]. destruct RS as [A | (m & A & B)]; [left; exact A | right; exists m; split; [exact A |]]. rewrite E7. apply in_or_app. left. exact B.
  - destruct (complete_phase _ _ _ _ CP) as (f & P & ND).
    assert (IR := phaseOf_fst _ _ _ P). assert (IL := run_live rank _ _ G IR). assert (IC := phaseOf_In _ _ _ P). assert (G0 := ginv_unrun rank s i _ G P).
    revert CP. unfold complete. rewrite P. cbv zeta. set (s0 := setRun (removeRun i (s_run s)) s) in *.
    destruct (_ && _) eqn:RQ.
    + apply andb_true_iff in RQ. destruct RQ as (RQ & DN). apply negb_true_iff in DN.
      unfold obind. destruct (startRequests over i (c_reqs (s_ctx s i)) s0) as [s1| |] eqn:E; [|discriminate|discriminate]. intros X; apply Ok_inj in X. subst s'.
      destruct (ginv_requests rank over i (c_reqs (s_ctx s i)) s0 0 s1 G0 (g_rank _ _ _ _ _ G i IL) E) as (G1 & C1 & R1).
      destruct (startRequests_same _ _ _ _ _ E) as ((A1 & A2 & A3 & A4 & A5 & A6 & A7 & A8 & A9 & A10 & A11) & B1 & B2 & B3 & B4 & B5).
      assert (CE : c_err (s_ctx s i) = None) by (destruct f; [discriminate |]; unfold hasError in DN; destruct (c_err (s_ctx s i)); [discriminate | reflexivity]).
      assert (NT : forall j, In j (map fst (s_done s)) -> c_notify (s_ctx s1 j) = c_notify (s_ctx s j)).
      { assert (NT0 : forall ks a b, (forall k j, In (k, j) (s_all a) -> In j (s_live a)) -> ginv rank [i] (List.length ks) [] b \/ True -> startRequests over i ks a = Ok b -> forall j, (j < s_next a)%nat -> ~ In j (s_live a) -> c_notify (s_ctx b j) = c_notify (s_ctx a j)).
        { induction ks as [|k ks IH]; intros a b AL _ EE j Hj NL; cbn [startRequests] in EE; [apply Ok_inj in EE; subst; reflexivity |].
          unfold obind in EE. destruct (startInternal over i k a) as [a1| |] eqn:EI; [|discriminate|discriminate].
          destruct (startInternal_same _ _ _ _ _ EI) as (_ & _ & C3 & _ & C5 & _ & C7).
          rewrite (IH a1 b); [| | right; exact I | exact EE | lia | rewrite C5; intros [Y | Y]; [contradiction | lia]].
          - destruct (C7 j Hj) as [Y | [Y | Y]]; [exact Y | destruct (NL (AL _ _ Y)) | destruct (NL (AL _ _ Y))].
          - revert EI. unfold startInternal. destruct (snd k <? 0); [discriminate |]. destruct (findKey k (s_all a)); intros X; apply Ok_inj in X; subst a1; [exact AL |].
            unfold queueTask. cbv zeta. match goal with |- forall k0 j0, In _ (s_all (wakeThread ?o ?y)) -> _ => destruct (wake_same o y) as (_ & _ & _ & W4 & _ & W6 & _) end. rewrite W4, W6.
            cbn [setTasks setAll newCtx s_all s_live]. intros k0 j0 Hj0. apply in_or_app. apply in_app_iff in Hj0. destruct Hj0 as [Y | [Y | []]]; [left; eapply AL; exact Y | injection Y as _ <-; right; left; reflexivity]. }
        intros j Hj. rewrite (NT0 (c_reqs (s_ctx s i)) s0 s1); [reflexivity | | right; exact I | exact E | apply (h_lt _ H), Hj | apply DL, Hj].
        intros k j' Y. apply (g_all _ _ _ _ _ G) in Y. apply Y. }
      unfold sortTasks. apply (hinv_grow s); auto; cbn [setTasks setCtx s_ctx s_next s_live s_run]; auto.
      * intros j Hj. destruct (B3 j Hj) as (D1 & D2 & _). unfold upd. destruct (Nat.eqb j i) eqn:Y; [apply Nat.eqb_eq in Y; subst; cbn [c_key c_ext] |]; auto.
      * intros j Hj. unfold upd. destruct (Nat.eqb j i) eqn:Y; [apply Nat.eqb_eq in Y; subst; destruct (DL i Hj IL) |]. apply NT, Hj.
      * intros j Hj. destruct (B3 j (LT j Hj)) as (D1 & D2 & D3 & D4 & D5 & D6 & D7). unfold upd. destruct (Nat.eqb j i) eqn:Y; [apply Nat.eqb_eq in Y; subst; cbn [c_err c_avail] |]; auto.
      * intros j Hj. assert (NI : j <> i) by (intros ->; generalize (LT i IL); change (s_next s0) with (s_next s) in Hj; lia). rewrite upd_other by exact NI. destruct (B5 j Hj) as (_ & D2 & D3 & _). auto.
      * intros j m Hj Y _ f' Hf. rewrite A1. apply In_removeRun. split; [exact Hf |]. intros ->. congruence.
    + assert (CE : forall r s', mayEnd s i r -> obind (tellAll over i r (c_notify (s_ctx s i)) (finish i r s0)) (fun s' => Ok (sortIfGrown (List.length (s_tasks (finish i r s0))) s')) = Ok s' -> hinv s').
      { intros r s2 ME. unfold obind. destruct (tellAll _ _ _ _ _) as [s1| |] eqn:E; [|discriminate|discriminate]. intros X; apply Ok_inj in X. subst s2.
        eapply (hinv_ends over i r s s0 s1); eauto. intros j p NE Hj. apply In_removeRun. auto. }
      destruct (c_err (s_ctx s i)) as [m|] eqn:CR; [apply CE, mayEnd_ok; assumption |]. destruct f as [f|]; [apply CE, mayEnd_none; assumption | discriminate].
  - unfold park. destruct (_ && _); apply SAME; reflexivity.
  - unfold wakes. destruct (_ <=? _)%nat; apply SAME; reflexivity.
  - apply SAME; reflexivity.
  - apply SAME; reflexivity.
  - apply SAME; reflexivity.
Qed.
Lemma hinv_start : forall n, hinv (start n).
Proof. intros n. constructor; cbn; try contradiction; try constructor; try tauto. lia. Qed.
Lemma reachable_hinv : forall s, reachable modeOf rank s -> hinv s.
Proof. induction 1 as [n Hn | s s' R IH S]; [apply hinv_start | eapply hinv_step; [apply (reachable_inv modeOf rank s R) | exact IH | exact S]]. Qed.
End Hist.
