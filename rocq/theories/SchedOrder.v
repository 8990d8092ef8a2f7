(** The task list is in order whenever the lock is free; runs of the pool as lists of events. *)
From Coq Require Import ZArith List Bool Arith Lia Permutation Sorting.Sorted.
From Verif Require Import Common SchedSpec Sched SchedInv SchedStep SchedSerial SchedThreads SchedHist.
Import ListNotations.
Open Scope Z_scope.

Definition ordKey (s : st) (i : nat) : Z * Z := (c_order (s_ctx s i), snd (c_key (s_ctx s i))).
Definition sorted (s : st) (l : list nat) : Prop := StronglySorted (fun a b => notAfter (ordKey s a) (ordKey s b)) l.
Lemma taskLt_false : forall s a b, taskLt s b a = false -> notAfter (ordKey s a) (ordKey s b).
Proof.
  intros s a b. unfold taskLt, notAfter, ordKey. cbn [fst snd]. rewrite orb_false_iff, andb_false_iff, !Z.ltb_ge, Z.eqb_neq. lia.
Qed.
Lemma taskLt_true : forall s a b, taskLt s b a = true -> notAfter (ordKey s b) (ordKey s a).
Proof.
  intros s a b. unfold taskLt, notAfter, ordKey. cbn [fst snd]. rewrite orb_true_iff, andb_true_iff, !Z.ltb_lt, Z.eqb_eq. lia.
Qed.
Lemma notAfter_trans : forall a b c, notAfter a b -> notAfter b c -> notAfter a c.
Proof. unfold notAfter. intros. lia. Qed.
Lemma insert_sorted : forall s a l, sorted s l -> sorted s (insertTask s a l).
Proof.
  intros s a l. unfold sorted. induction l as [|b l IH]; intros H; cbn [insertTask]; [repeat constructor |].
  inversion H as [|? ? H1 H2]; subst. destruct (taskLt s b a) eqn:E.
  - constructor; [apply IH, H1 |]. apply Forall_forall. intros x Hx. apply (Permutation_in _ (insertTask_perm s a l)) in Hx. destruct Hx as [<- | Hx]; [apply taskLt_true, E | rewrite Forall_forall in H2; apply H2, Hx].
  - apply taskLt_false in E. constructor; [exact H |]. constructor; [exact E |]. eapply Forall_impl; [| exact H2]. cbv beta. intros x Hx. eapply notAfter_trans; eassumption.
Qed.
Lemma sort_sorted : forall s l, sorted s (fold_right (insertTask s) [] l).
Proof. intros s l. induction l as [|a l IH]; [constructor | apply insert_sorted, IH]. Qed.
Lemma sorted_filter : forall s p l, sorted s l -> sorted s (filter p l).
Proof.
  intros s p l. unfold sorted. induction 1 as [|a l H IH F]; [constructor |]. cbn [filter]. destruct (p a); [| exact IH]. constructor; [exact IH |].
  apply Forall_forall. intros x Hx. apply filter_In in Hx. rewrite Forall_forall in F. apply F. tauto.
Qed.
Lemma sorted_ext : forall s s' l, (forall i, In i l -> ordKey s' i = ordKey s i) -> sorted s l -> sorted s' l.
Proof.
  intros s s' l. unfold sorted. induction l as [|a l IH]; intros E H; [constructor |]. inversion H as [|? ? H1 H2]; subst. constructor; [apply IH; [intros; apply E; right; assumption | exact H1] |].
  apply Forall_forall. intros x Hx. rewrite Forall_forall in H2. rewrite (E a (or_introl eq_refl)), (E x (or_intror Hx)). apply H2, Hx.
Qed.
Lemma sorted_snoc : forall s l a, sorted s l -> (forall x, In x l -> notAfter (ordKey s x) (ordKey s a)) -> sorted s (l ++ [a]).
Proof.
  intros s l a. unfold sorted. induction 1 as [|b l H IH F]; intros N; cbn [app]; [repeat constructor |]. constructor; [apply IH; intros; apply N; right; assumption |].
  apply Forall_app. split; [exact F | constructor; [apply N; left; reflexivity | constructor]].
Qed.
Lemma sorted_inOrder : forall s l, sorted s l -> inOrder (map (ordKey s) l).
Proof.
  intros s l H p a q b r E. unfold sorted in H. revert p a q b r E. induction H as [|x l H IH F]; intros p a q b r E; cbn [map] in E; [destruct p; discriminate |].
  destruct p as [|y p]; cbn [app] in E; injection E as E1 E2.
  - subst a. assert (X : In b (map (ordKey s) l)) by (rewrite E2; apply in_or_app; right; left; reflexivity). apply in_map_iff in X. destruct X as (z & <- & Hz). rewrite Forall_forall in F. apply F, Hz.
  - eapply IH. exact E2.
Qed.
Lemma startRequests_ext : forall over w ks s s', (forall k i, In (k, i) (s_all s) -> c_ext (s_ctx s i) = false) -> startRequests over w ks s = Ok s' ->
  forall j, (j < s_next s)%nat -> c_ext (s_ctx s j) = true -> s_ctx s' j = s_ctx s j.
Proof.
  induction ks as [|k r IH]; intros s s' AL E j Hj X; cbn [startRequests] in E; [apply Ok_inj in E; subst; reflexivity |].
  unfold obind in E. destruct (startInternal over w k s) as [s1| |] eqn:EI; [|discriminate|discriminate].
  assert (S1 : s_ctx s1 j = s_ctx s j /\ (j < s_next s1)%nat /\ (forall k i, In (k, i) (s_all s1) -> c_ext (s_ctx s1 i) = false)).
  { revert EI. unfold startInternal. destruct (snd k <? 0); [discriminate |]. destruct (findKey k (s_all s)) as [i|] eqn:FK; intros Y; apply Ok_inj in Y; subst s1.
    - apply findKey_In, AL in FK. cbn [setCtx s_ctx s_next s_all]. split; [apply upd_other; intros ->; congruence |]. split; [exact Hj |].
      intros k' i' H'. unfold upd. destruct (Nat.eqb i' i) eqn:Z; [exact FK | eapply AL; exact H'].
    - unfold queueTask. cbv zeta. match goal with |- context [wakeThread ?o ?y] => destruct (wake_same o y) as (_ & W2 & W3 & _ & _ & W6 & _) end. rewrite W2, W3, W6.
      cbn [setTasks setAll newCtx s_ctx s_next s_all]. split; [apply upd_other; lia |]. split; [lia |].
      intros k' i' H'. apply in_app_iff in H'. destruct H' as [H' | [H' | []]].
      + unfold upd. destruct (Nat.eqb i' (s_next s)); [reflexivity | eapply AL; exact H'].
      + injection H' as <- <-. rewrite upd_same. reflexivity. }
  destruct S1 as (A & B & C). rewrite (IH s1 s' C E j B); [exact A | rewrite A; exact X].
Qed.

Section Order.
Variable modeOf : Z -> fmode.
Variable rank : Z -> nat.
Notation inv := (inv rank).
Definition qinv (s : st) : Prop := sorted s (s_tasks s) /\ sorted s (s_alt s).
Lemma qinv_told : forall over i r ws s s', tellAll over i r ws s = Ok s' -> qinv s -> qinv (sortIfGrown (List.length (s_tasks s)) s').
Proof.
  intros over i r ws s s' T (Q1 & Q2). destruct (tellAll_same _ _ _ _ _ _ T) as ((A1 & A2 & A3 & A4 & A5 & A6 & A7 & A8 & A9 & A10 & A11) & _ & _ & _ & _ & B5 & _ & (ad & B8)).
  assert (K : forall j, ordKey s' j = ordKey s j) by (intros j; unfold ordKey; destruct (B5 j) as (-> & _ & -> & _); reflexivity).
  unfold qinv, sortIfGrown. destruct (Nat.eqb_spec (List.length (s_tasks s')) (List.length (s_tasks s))) as [E | E].
  - rewrite B8, app_length in E. destruct ad; [| cbn in E; lia]. rewrite B8, A11. cbn [app]. split; eapply sorted_ext; eauto.
  - split; [apply (sorted_ext s'); [intros; reflexivity | apply sort_sorted] |]. cbn [sortTasks setTasks s_alt]. rewrite A11. eapply (sorted_ext s); [intros j _; apply K | exact Q2].
Qed.
Lemma qinv_step : forall s s', inv s -> qinv s -> (s_flush s = true -> s_active s = 1%nat -> freeThread s = true -> forall cached fits, scan modeOf s cached fits (s_tasks s) [] = None -> s_tasks s = []) -> (0 < s_max s)%nat ->
  step modeOf rank s s' -> qinv s'.
Proof.
  intros s s' G (Q1 & Q2) PK MX S.
  assert (TL : forall j, In j (s_tasks s) -> In j (s_live s)) by (intros j Hj; apply (task_live rank); assumption).
  assert (AL : forall j, In j (s_alt s) -> In j (s_live s)) by (intros j Hj; apply (g_plive _ _ _ _ _ G); unfold places; rewrite !in_app_iff; auto).
  destruct S as [over k Hk | over cached fits i f s' FT SC RC | cached fits i FT SC | i x s' WB RT | over i s' CP | cached fits over FT MP | NT | WT | n Hn | AC].
  - unfold startExternal. cbv zeta. set (s1 := newCtx _ _).
    assert (O : forall j, In j (s_live s) -> ordKey s1 j = ordKey s j).
    { intros j Hj. apply (g_lt _ _ _ _ _ G) in Hj. unfold ordKey. cbn [s1 newCtx s_ctx setCounter s_next]. rewrite upd_other by lia. reflexivity. }
    assert (N : fst (ordKey s1 (s_next s)) = s_counter s + 1) by (unfold ordKey; cbn [s1 newCtx s_ctx setCounter s_next]; rewrite upd_same; reflexivity).
    assert (SN : forall l, (forall j, In j l -> In j (s_live s)) -> sorted s l -> sorted s1 (l ++ [s_next s])).
    { intros l HL HS. apply sorted_snoc; [apply (sorted_ext s); auto |]. intros x Hx. left. rewrite N, (O x (HL x Hx)). cbn. generalize (g_order _ _ _ _ _ G x (HL x Hx)). lia. }
    change (s_flush s1) with (s_flush s). destruct (s_flush s).
    + split; cbn [setAlt s_tasks s_alt]; [apply (sorted_ext s); [intros j Hj; apply O, TL, Hj | exact Q1] | apply SN; assumption].
    + match goal with |- qinv (wakeThread ?o ?y) => destruct (wake_same o y) as ((_ & _ & _ & _ & _ & _ & _ & _ & _ & _ & W11) & W2 & _ & _ & _ & _ & W7) end. unfold qinv. rewrite W11, W7.
      split; (eapply (sorted_ext s1); [intros j _; unfold ordKey; rewrite W2; reflexivity |]); cbn [setTasks s_tasks s_alt]; [apply SN; assumption | apply (sorted_ext s); [intros j Hj; apply O, AL, Hj | exact Q2]].
  - revert RC. unfold runCached. cbv zeta. set (s1 := setTasks _ s). unfold obind. destruct (tellAll _ _ _ _ _) as [s2| |] eqn:E; [|discriminate|discriminate]. intros X; apply Ok_inj in X. subst s'.
    eapply qinv_told; [exact E |]. destruct (finish_same i (Frame f) s1) as (_ & _ & _ & _ & _ & F6 & _ & F8). unfold qinv. rewrite F8. assert (FA : s_alt (finish i (Frame f) s1) = s_alt s) by (unfold finish; cbn [retire s_ctx]; destruct (c_ext _); reflexivity). rewrite FA.
    split; (eapply (sorted_ext s); [intros j _; unfold ordKey; rewrite F6; reflexivity |]); [apply sorted_filter, Q1 | exact Q2].
  - assert (E : s_ctx (take modeOf i s) = upd (s_ctx s) i (setFirst (s_ctx s i)) /\ s_tasks (take modeOf i s) = removeTask i (s_tasks s) /\ s_alt (take modeOf i s) = s_alt s).
    { unfold take. cbv zeta. destruct (useSerialLock _ _); [destruct (_ && _) |]; repeat split. }
    destruct E as (E1 & E2 & E3).
    assert (O : forall j, ordKey (take modeOf i s) j = ordKey s j) by (intros j; unfold ordKey; rewrite E1; unfold upd; destruct (Nat.eqb j i) eqn:X; [apply Nat.eqb_eq in X; subst |]; reflexivity).
    unfold qinv. rewrite E2, E3. split; (eapply (sorted_ext s); [intros j _; apply O |]); [apply sorted_filter, Q1 | exact Q2].
  - revert RT. unfold returns. destruct (phaseOf i (s_run s)) as [[lk ar | f0]|] eqn:P; [|discriminate|discriminate]. cbv zeta. set (c := mkC _ _ _ _ _ _ _ _ _).
    destruct (match _ with Some _ => hasError c | None => false end); [discriminate |]. intros E; apply Ok_inj in E; subst s'. set (s' := if lk then _ else _).
    assert (E1 : s_ctx s' = upd (s_ctx s) i c) by (unfold s'; destruct x, lk; try destruct (_ && _); reflexivity).
    assert (E2 : s_tasks s' = s_tasks s) by (unfold s'; destruct x, lk; try destruct (_ && _); reflexivity).
    assert (E3 : s_alt s' = s_alt s) by (unfold s'; destruct x, lk; try destruct (_ && _); reflexivity).
    clearbody s'. assert (O : forall j, ordKey s' j = ordKey s j) by (intros j; unfold ordKey; rewrite E1; unfold upd; destruct (Nat.eqb j i) eqn:X; [apply Nat.eqb_eq in X; subst |]; reflexivity).
    unfold qinv. rewrite E2, E3. split; (eapply (sorted_ext s); [intros j _; apply O |]); assumption.
  - destruct (complete_phase _ _ _ _ CP) as (f & P & ND). assert (IR := phaseOf_fst _ _ _ P). assert (IL := run_live rank _ _ G IR).
    revert CP. unfold complete. rewrite P. cbv zeta. set (s0 := setRun (removeRun i (s_run s)) s) in *.
    destruct (_ && _).
    + unfold obind. destruct (startRequests over i (c_reqs (s_ctx s i)) s0) as [s1| |] eqn:E; [|discriminate|discriminate]. intros X; apply Ok_inj in X. subst s'. split; [unfold sortTasks at 2; cbn [setTasks s_tasks]; eapply sorted_ext; [| apply sort_sorted]; intros; reflexivity |].
      destruct (startRequests_same _ _ _ _ _ E) as ((A1 & A2 & A3 & A4 & A5 & A6 & A7 & A8 & A9 & A10 & A11) & _). cbn [sortTasks setTasks setCtx s_alt]. rewrite A11. change (s_alt s0) with (s_alt s).
      eapply (sorted_ext s); [| exact Q2]. intros j Hj. assert (NE : j <> i) by (intros ->; apply (run_not_alt rank s i G Hj IR)).
      unfold ordKey. cbn [sortTasks setTasks setCtx s_ctx]. rewrite upd_other by exact NE. rewrite (startRequests_ext over i (c_reqs (s_ctx s i)) s0 s1 (fun k i H => proj1 (proj2 (proj1 (g_all _ _ _ _ _ G k i) H))) E j (g_lt _ _ _ _ _ G j (AL j Hj)) (proj1 (g_alt _ _ _ _ _ G j Hj))). reflexivity.
    + assert (CE : forall r, obind (tellAll over i r (c_notify (s_ctx s i)) (finish i r s0)) (fun s' => Ok (sortIfGrown (List.length (s_tasks (finish i r s0))) s')) = Ok s' -> qinv s').
      { intros r. unfold obind. destruct (tellAll _ _ _ _ _) as [s1| |] eqn:E; [|discriminate|discriminate]. intros X; apply Ok_inj in X. subst s'. eapply qinv_told; [exact E |].
        destruct (finish_same i r s0) as (_ & _ & _ & _ & _ & F6 & _ & F8). unfold qinv. rewrite F8. assert (FA : s_alt (finish i r s0) = s_alt s) by (unfold finish; cbn [retire s_ctx]; destruct (c_ext _); reflexivity). rewrite FA.
        split; (eapply (sorted_ext s); [intros j _; unfold ordKey; rewrite F6; reflexivity |]); assumption. }
      destruct (c_err (s_ctx s i)); [apply CE |]. destruct f; [apply CE | discriminate].
  - unfold park. destruct (s_flush s && Nat.eqb (s_active s) 1) eqn:E; [| split; assumption].
    split; cbn [setThreads setFlush setAlt setTasks s_tasks s_alt]; assumption.
  - unfold wakes. destruct (_ <=? _)%nat; split; assumption.
  - split; assumption.
  - split; assumption.
  - split; assumption.
Qed.
Lemma reachable_qinv : forall s, reachable modeOf rank s -> qinv s.
Proof.
  induction 1 as [n Hn | s s' R IH S]; [split; constructor |]. destruct (reachable_inv modeOf rank s R) as (G & V & T).
  refine (qinv_step s s' G IH _ (t_max _ T) S).
  intros FL AC FT cached fits SC. unfold freeThread in FT. apply Nat.ltb_lt in FT. apply (scan_progress modeOf rank s cached fits G V); [| exact SC]. destruct (s_run s); [reflexivity | cbn [List.length] in FT; lia].
Qed.

(** What a thread passes over. *)
Definition passedOver (s : st) (cached : nat -> option Z) (fits : nat -> bool) (earlier : list nat) (j : nat) : Prop :=
  (c_first (s_ctx s j) = true -> cached j = None) /\
  ((isFrameState (modeOf (nodeOf s j)) = false /\ exists e, In e earlier /\ nodeOf s e = nodeOf s j) \/
   ((0 < processing s)%nat /\ fits j = false) \/ s_mutex s (nodeOf s j) = true \/
   (isFrameState (modeOf (nodeOf s j)) = true /\ s_sframe s (nodeOf s j) <> -1 /\ s_sowner s (nodeOf s j) <> Some j)).
Lemma scan_first_gen : forall s cached fits l pre seen i o, (forall nd, In nd seen -> exists e, In e pre /\ nodeOf s e = nd) -> scan modeOf s cached fits l seen = Some (i, o) ->
  exists p q, l = p ++ i :: q /\ forall a j b, p = a ++ j :: b -> passedOver s cached fits (pre ++ a) j.
Proof.
  induction l as [|x r IH]; intros pre seen i o SN; cbn [scan]; [discriminate |].
  destruct (if c_first (s_ctx s x) then cached x else None) as [f|] eqn:C.
  - intros E; injection E as <- <-. exists [], r. split; [reflexivity | intros a j b X; destruct a; discriminate].
  - assert (CN : c_first (s_ctx s x) = true -> cached x = None) by (intros X; rewrite X in C; exact C).
    assert (NEXT : forall seen', (forall nd, In nd seen' -> exists e, In e (pre ++ [x]) /\ nodeOf s e = nd) -> passedOver s cached fits pre x -> scan modeOf s cached fits r seen' = Some (i, o) ->
      exists p q, x :: r = p ++ i :: q /\ forall a j b, p = a ++ j :: b -> passedOver s cached fits (pre ++ a) j).
    { intros seen' SN' PO E. destruct (IH (pre ++ [x]) seen' i o SN' E) as (p & q & -> & H). exists (x :: p), q. split; [reflexivity |].
      intros a j b X. destruct a as [|y a]; cbn [app] in X; injection X as <- X; [rewrite app_nil_r; exact PO |]. generalize (H a j b X). rewrite <- app_assoc. auto. }
    assert (SN1 : forall nd, In nd seen -> exists e, In e (pre ++ [x]) /\ nodeOf s e = nd) by (intros nd Hn; destruct (SN nd Hn) as (e & A & B); exists e; split; [apply in_or_app; left; exact A | exact B]).
    cbv zeta. change (fst (c_key (s_ctx s x))) with (nodeOf s x).
    destruct (negb (isFrameState (modeOf (nodeOf s x))) && existsb (Z.eqb (nodeOf s x)) seen) eqn:E1.
    { apply NEXT; [exact SN1 |]. apply andb_true_iff in E1. destruct E1 as (A & B). apply negb_true_iff in A. apply existsb_exists in B. destruct B as (nd & B & D). apply Z.eqb_eq in D. subst nd. split; [exact CN |]. left. split; [exact A | apply SN, B]. }
    set (seen' := if _ && _ then _ else seen).
    assert (SN2 : forall nd, In nd seen' -> exists e, In e (pre ++ [x]) /\ nodeOf s e = nd).
    { unfold seen'. destruct (negb (isFrameState (modeOf (nodeOf s x))) && (List.length seen <? 64)%nat); [| exact SN1]. intros nd [<- | Hn]; [exists x; split; [apply in_or_app; right; left; reflexivity | reflexivity] | apply SN1, Hn]. }
    destruct ((0 <? processing s)%nat && negb (fits x)) eqn:E2.
    { apply NEXT; [exact SN2 |]. apply andb_true_iff in E2. destruct E2 as (A & B). apply Nat.ltb_lt in A. apply negb_true_iff in B. split; [exact CN |]. right. left. auto. }
    destruct (useSerialLock _ _ && _) eqn:E3.
    { apply NEXT; [exact SN2 |]. apply andb_true_iff in E3. split; [exact CN |]. right. right. left. apply E3. }
    destruct (isFrameState (modeOf (nodeOf s x)) && _ && _) eqn:E4.
    { apply NEXT; [exact SN2 |]. apply andb_true_iff in E4. destruct E4 as (A & B). apply andb_true_iff in A. destruct A as (A1 & A2). split; [exact CN |]. right. right. right. split; [exact A1 |].
      apply negb_true_iff in A2, B. split; [apply Z.eqb_neq, A2 |]. intros X. rewrite X, Nat.eqb_refl in B. discriminate. }
    intros E; injection E as <- <-. exists [], r. split; [reflexivity | intros a j b X; destruct a; discriminate].
Qed.

(** ** Runs *)
Inductive event := EExternal (k : key) | ETake (i : nat) | ECached (i : nat) (f : Z) | EReturns (i : nat) (x : ret) | EComplete (i : nat) | EPark | EWakes | EFlush.
Definition noCache (_ : nat) : option Z := None.
Definition onlyFor (i : nat) (f : Z) (j : nat) : option Z := if Nat.eqb j i then Some f else None.
Definition always (_ : nat) : bool := true.
Definition behaves (s : st) (i : nat) (x : ret) : bool :=
  match x with RRequests ks => negb (Nat.eqb (List.length ks) 0) && forallb (fun k => (0 <=? snd k) && (rank (fst k) <? rank (fst (c_key (s_ctx s i))))%nat) ks | _ => true end.
Definition occurs (e : event) (s : st) : option st :=
  match e with
  | EExternal k => if 0 <=? snd k then Some (startExternal false k s) else None
  | ETake i => match scan modeOf s noCache always (s_tasks s) [] with
               | Some (j, None) => if freeThread s && Nat.eqb j i then Some (take modeOf i s) else None
               | _ => None end
  | ECached i f => match scan modeOf s (onlyFor i f) always (s_tasks s) [] with
                   | Some (j, Some g) => if freeThread s && Nat.eqb j i && (g =? f) then match runCached (fun _ => false) i f s with Ok s' => Some s' | _ => None end else None
                   | _ => None end
  | EReturns i x => if behaves s i x then match returns modeOf i x s with Ok s' => Some s' | _ => None end else None
  | EComplete i => match complete (fun _ => false) i s with Ok s' => Some s' | _ => None end
  | EPark => if freeThread s && mayPark (match scan modeOf s noCache always (s_tasks s) [] with None => true | Some _ => false end) false s then Some (park s) else None
  | EWakes => if (0 <? s_notified s)%nat then Some (wakes s) else None
  | EFlush => if (0 <? s_active s)%nat then Some (setFlush true s) else None
  end.
Fixpoint history (es : list event) (s : st) : option st := match es with [] => Some s | e :: r => match occurs e s with Some s' => history r s' | None => None end end.
Lemma occurs_step : forall e s s', occurs e s = Some s' -> step modeOf rank s s'.
Proof.
  intros e s s'. destruct e as [k | i | i f | i x | i | | |]; cbn [occurs].
  - destruct (Z.leb_spec 0 (snd k)); [| discriminate]. intros E; injection E as <-. apply st_external. assumption.
  - destruct (scan _ _ _ _ _ _) as [[j [g|]]|] eqn:SC; try discriminate. destruct (freeThread s) eqn:FT; [| discriminate]. destruct (Nat.eqb_spec j i); [subst j | discriminate]. intros E; injection E as <-. eapply st_take; eassumption.
  - destruct (scan _ _ _ _ _ _) as [[j [g|]]|] eqn:SC; try discriminate. destruct (freeThread s) eqn:FT; [| discriminate]. destruct (Nat.eqb_spec j i); [subst j | discriminate]. destruct (Z.eqb_spec g f); [subst g | discriminate]. cbn [andb].
    destruct (runCached _ _ _ _) eqn:RC; try discriminate. intros E; injection E as <-. eapply st_cached; eassumption.
  - destruct (behaves s i x) eqn:B; [| discriminate]. destruct (returns _ _ _ _) eqn:R; try discriminate. intros E; injection E as <-. eapply st_returns; [| exact R].
    destruct x as [f | m | ks]; auto. cbn [behaves] in B. apply andb_true_iff in B. destruct B as (B1 & B2). split; [intros ->; discriminate |]. rewrite forallb_forall in B2. apply Forall_forall. intros k Hk. apply B2 in Hk. apply andb_true_iff in Hk. rewrite Z.leb_le, Nat.ltb_lt in Hk. exact Hk.
  - destruct (complete _ _ _) eqn:C; try discriminate. intros E; injection E as <-. eapply st_complete. exact C.
  - destruct (freeThread s && mayPark _ _ _) eqn:M; [| discriminate]. intros E; injection E as <-. apply andb_true_iff in M. destruct M as (M1 & M2). eapply st_park; eassumption.
  - destruct (Nat.ltb_spec 0 (s_notified s)); [| discriminate]. intros E; injection E as <-. apply st_wakes. assumption.
  - destruct (Nat.ltb_spec 0 (s_active s)); [| discriminate]. intros E; injection E as <-. apply st_flush. assumption.
Qed.
Lemma history_reachable : forall es s s', reachable modeOf rank s -> history es s = Some s' -> reachable modeOf rank s'.
Proof.
  induction es as [|e r IH]; intros s s' R; cbn [history]; [intros E; injection E as <-; exact R |].
  destruct (occurs e s) as [s1|] eqn:O; [| discriminate]. apply IH. eapply re_step; [exact R | apply (occurs_step e), O].
Qed.
Definition runOf (n : nat) (es : list event) : option st := history es (start (S n)).
Lemma runOf_reachable : forall n es s, runOf n es = Some s -> reachable modeOf rank s.
Proof. intros n es s. apply history_reachable, re_start. lia. Qed.
End Order.
