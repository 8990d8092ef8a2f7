(** The invariant of the thread pool: where contexts are, and who waits for how many results. *)
From Coq Require Import ZArith List Bool Arith Lia Permutation.
From Verif Require Import Common SchedSpec Sched.
Import ListNotations.
Open Scope Z_scope.

(** ** Lists *)
Lemma Ok_inj : forall (A : Type) (a b : A), Ok a = Ok b -> a = b.
Proof. intros A a b E. injection E. auto. Qed.
Definition countIn (l : list nat) (i : nat) : nat := count_occ Nat.eq_dec l i.
Lemma countIn_app : forall a b i, countIn (a ++ b) i = (countIn a i + countIn b i)%nat.
Proof. intros. apply count_occ_app. Qed.
Lemma countIn_cons : forall w l i, countIn (w :: l) i = ((if Nat.eq_dec w i then 1 else 0) + countIn l i)%nat.
Proof. intros. unfold countIn. cbn [count_occ]. destruct (Nat.eq_dec w i); reflexivity. Qed.
Lemma countIn_zero : forall l i, countIn l i = 0%nat <-> ~ In i l.
Proof. intros. symmetry. apply count_occ_not_In. Qed.
Definition owedBy (c : nat -> ctx) (live : list nat) (i : nat) : nat := list_sum (map (fun j => countIn (c_notify (c j)) i) live).
Lemma owedBy_ext : forall c c' live i, (forall j, In j live -> c_notify (c' j) = c_notify (c j)) -> owedBy c' live i = owedBy c live i.
Proof. intros c c' live i H. unfold owedBy. f_equal. apply map_ext_in. intros j Hj. rewrite H; auto. Qed.
Lemma owedBy_app : forall c a b i, owedBy c (a ++ b) i = (owedBy c a i + owedBy c b i)%nat.
Proof. intros. unfold owedBy. rewrite map_app, list_sum_app. reflexivity. Qed.
Lemma owedBy_cons : forall c j b i, owedBy c (j :: b) i = (countIn (c_notify (c j)) i + owedBy c b i)%nat.
Proof. reflexivity. Qed.
Lemma owedBy_zero : forall c live i, owedBy c live i = 0%nat <-> (forall j, In j live -> ~ In i (c_notify (c j))).
Proof.
  induction live as [|j l IH]; intros i; [split; [intros _ ? [] | reflexivity] |].
  rewrite owedBy_cons. split.
  - intros H j' [<- | Hj]; [apply countIn_zero; lia | apply IH; [lia | exact Hj]].
  - intros H. assert (A : countIn (c_notify (c j)) i = 0%nat) by (apply countIn_zero, H; left; reflexivity).
    assert (B : owedBy c l i = 0%nat) by (apply IH; intros j' Hj'; apply H; right; exact Hj'). lia.
Qed.
Lemma owedBy_split : forall c live i j, NoDup live -> In j live ->
  owedBy c live i = (countIn (c_notify (c j)) i + owedBy c (removeTask j live) i)%nat.
Proof.
  induction live as [|a l IH]; intros i j N H; [destruct H |]. inversion N; subst. unfold removeTask in *. cbn [filter].
  destruct (Nat.eqb a j) eqn:E; cbn [negb].
  - apply Nat.eqb_eq in E; subst a. rewrite owedBy_cons. f_equal.
    assert (F : filter (fun j0 : nat => negb (Nat.eqb j0 j)) l = l); [| rewrite F; reflexivity].
    clear - H2. induction l as [|b l IH]; [reflexivity |]. cbn [filter]. destruct (Nat.eqb b j) eqn:E.
    + apply Nat.eqb_eq in E. destruct H2. left. auto.
    + cbn [negb]. f_equal. apply IH. intros X. apply H2. right. exact X.
  - destruct H as [-> | H]; [rewrite Nat.eqb_refl in E; discriminate |]. rewrite !owedBy_cons, (IH i j H3 H). lia.
Qed.
Lemma In_removeTask : forall i j l, In j (removeTask i l) <-> In j l /\ j <> i.
Proof.
  intros. unfold removeTask. rewrite filter_In, negb_true_iff, Nat.eqb_neq. reflexivity.
Qed.
Lemma NoDup_removeTask : forall i l, NoDup l -> NoDup (removeTask i l).
Proof. intros. apply NoDup_filter. assumption. Qed.
Lemma removeTask_id : forall i l, ~ In i l -> removeTask i l = l.
Proof.
  intros i l H. unfold removeTask. induction l as [|b l IH]; [reflexivity |]. cbn [filter]. destruct (Nat.eqb b i) eqn:E.
  - apply Nat.eqb_eq in E. destruct H. left. auto.
  - cbn [negb]. f_equal. apply IH. intros X. apply H. right. exact X.
Qed.
Lemma removeTask_perm : forall i l, NoDup l -> In i l -> Permutation l (i :: removeTask i l).
Proof.
  induction l as [|b l IH]; intros N H; [destruct H |]. inversion N; subst. unfold removeTask in *. cbn [filter].
  destruct (Nat.eqb b i) eqn:E; cbn [negb].
  - apply Nat.eqb_eq in E; subst b. change (filter (fun j : nat => negb (Nat.eqb j i)) l) with (removeTask i l). rewrite removeTask_id; auto.
  - destruct H as [-> | H]; [rewrite Nat.eqb_refl in E; discriminate |]. rewrite (IH H3 H) at 1. apply perm_swap.
Qed.
Lemma removeRun_fst : forall i l, map fst (removeRun i l) = removeTask i (map fst l).
Proof. intros i l. unfold removeRun, removeTask. induction l as [|[j p] l IH]; [reflexivity |]. cbn [filter map fst]. destruct (Nat.eqb j i); cbn [negb map fst]; rewrite IH; reflexivity. Qed.
Lemma setPhase_fst : forall i p l, map fst (setPhase i p l) = map fst l.
Proof.
  intros i p l. induction l as [|[j q] l IH]; [reflexivity |]. unfold setPhase in *. cbn [map fst]. rewrite IH. f_equal.
  destruct (Nat.eqb j i) eqn:E; [apply Nat.eqb_eq in E; cbn; auto | reflexivity].
Qed.
Lemma phaseOf_In : forall i l p, phaseOf i l = Some p -> In (i, p) l.
Proof.
  intros i l p. unfold phaseOf. destruct (find _ l) as [[j q]|] eqn:E; cbn; [| discriminate]. intros X; injection X as ->.
  apply find_some in E. destruct E as (A & B). cbn in B. apply Nat.eqb_eq in B. subst. exact A.
Qed.
Lemma In_phaseOf : forall i l p, NoDup (map fst l) -> In (i, p) l -> phaseOf i l = Some p.
Proof.
  intros i l p. induction l as [|[j q] l IH]; intros N H; [destruct H |]. cbn in N. inversion N; subst. unfold phaseOf. cbn [find fst].
  destruct H as [E | H].
  - injection E as -> ->. rewrite Nat.eqb_refl. reflexivity.
  - destruct (Nat.eqb j i) eqn:E; [apply Nat.eqb_eq in E; subst j; destruct H2; apply in_map_iff; exists (i, p); auto | apply IH; auto].
Qed.
Lemma phaseOf_fst : forall i l p, phaseOf i l = Some p -> In i (map fst l).
Proof. intros i l p H. apply in_map_iff. exists (i, p). split; [reflexivity | apply phaseOf_In, H]. Qed.
Lemma upd_same : forall A (f : nat -> A) i x, upd f i x i = x.
Proof. intros. unfold upd. rewrite Nat.eqb_refl. reflexivity. Qed.
Lemma upd_other : forall A (f : nat -> A) i x j, j <> i -> upd f i x j = f j.
Proof. intros. unfold upd. destruct (Nat.eqb j i) eqn:E; [apply Nat.eqb_eq in E; congruence | reflexivity]. Qed.
Lemma keyEq_true : forall a b, keyEq a b = true <-> a = b.
Proof. intros [a1 a2] [b1 b2]. unfold keyEq. cbn. rewrite andb_true_iff, !Z.eqb_eq. split; [intros (-> & ->); reflexivity | intros E; injection E; auto]. Qed.
Lemma insertTask_perm : forall s a l, Permutation (insertTask s a l) (a :: l).
Proof. induction l as [|b l IH]; [reflexivity |]. cbn [insertTask]. destruct (taskLt s b a); [rewrite IH; apply perm_swap | reflexivity]. Qed.
Lemma sort_perm : forall s l, Permutation (fold_right (insertTask s) [] l) l.
Proof. induction l as [|b l IH]; [reflexivity |]. cbn [fold_right]. rewrite insertTask_perm, IH. reflexivity. Qed.

Section Inv.
Variable rank : Z -> nat.
Definition places (limbo : list nat) (s : st) : list nat := s_tasks s ++ s_alt s ++ map fst (s_run s) ++ limbo.
Definition nodeOf (s : st) (i : nat) : Z := fst (c_key (s_ctx s i)).
(** [limbo]: contexts a thread holds that are in no list; [pend] results are owed to each of them; [owed]: results being handed out. *)
Record ginv (limbo : list nat) (pend : nat) (owed : list nat) (s : st) : Prop := mkG {
  g_nd : NoDup (s_live s);
  g_lt : forall i, In i (s_live s) -> (i < s_next s)%nat;
  g_pnd : NoDup (places limbo s);
  g_plive : forall i, In i (places limbo s) -> In i (s_live s);
  g_zero : forall i, In i (s_live s) -> (In i (places limbo s) <-> c_nreq (s_ctx s i) = 0%nat);
  g_count : forall i, In i (s_live s) -> ~ In i limbo -> c_nreq (s_ctx s i) = (owedBy (s_ctx s) (s_live s) i + countIn owed i)%nat;
  g_limbo : forall i, In i limbo -> owedBy (s_ctx s) (s_live s) i = pend /\ ~ In i owed;
  g_ext : forall i, In i (s_live s) -> c_ext (s_ctx s i) = true -> c_notify (s_ctx s i) = [];
  g_int : forall i, In i (s_live s) -> c_ext (s_ctx s i) = false -> c_notify (s_ctx s i) <> [];
  g_alt : forall i, In i (s_alt s) -> c_ext (s_ctx s i) = true /\ c_first (s_ctx s i) = true;
  g_wait : forall j w, In j (s_live s) -> In w (c_notify (s_ctx s j)) -> In w (s_live s) /\ (rank (nodeOf s j) < rank (nodeOf s w))%nat;
  g_owed : forall w, In w owed -> In w (s_live s);
  g_all : forall k i, In (k, i) (s_all s) <-> In i (s_live s) /\ c_ext (s_ctx s i) = false /\ c_key (s_ctx s i) = k;
  g_keys : NoDup (map fst (s_all s));
  g_order : forall i, In i (s_live s) -> c_order (s_ctx s i) <= s_counter s;
  g_reqs : forall i, In i (s_live s) -> c_reqs (s_ctx s i) <> [] -> (exists f, In (i, Returned f) (s_run s)) \/ In i limbo;
  g_rank : forall i, In i (s_live s) -> Forall (fun k => 0 <= snd k /\ (rank (fst k) < rank (nodeOf s i))%nat) (c_reqs (s_ctx s i));
  g_frame : forall i, In i (s_live s) -> 0 <= snd (c_key (s_ctx s i));
  g_first : forall i, In i (s_live s) -> c_first (s_ctx s i) = true -> (In i (s_tasks s) \/ In i (s_alt s) \/ In i limbo) /\ c_err (s_ctx s i) = None /\ c_reqs (s_ctx s i) = [] }.
Definition inv := ginv [] 0 [].

(** Changes of threads, locks and records of history. *)
Ltac keep H := destruct H; constructor; auto.
Lemma ginv_setThreads : forall l p o s a w n, ginv l p o s -> ginv l p o (setThreads a w n s).
Proof. intros l p o s a w n H. keep H. Qed.
Lemma ginv_setSerial : forall l p o s a w n, ginv l p o s -> ginv l p o (setSerial a w n s).
Proof. intros l p o s a w n H. keep H. Qed.
Lemma ginv_addHist : forall l p o s h, ginv l p o s -> ginv l p o (addHist h s).
Proof. intros l p o s h H. keep H. Qed.
Lemma ginv_addOwn : forall l p o s h, ginv l p o s -> ginv l p o (addOwn h s).
Proof. intros l p o s h H. keep H. Qed.
Lemma ginv_setFlush : forall l p o s b, ginv l p o s -> ginv l p o (setFlush b s).
Proof. intros l p o s b H. keep H. Qed.
Lemma ginv_setMax : forall l p o s b, ginv l p o s -> ginv l p o (setMax b s).
Proof. intros l p o s b H. keep H. Qed.
Lemma ginv_wake : forall l p o s over, ginv l p o s -> ginv l p o (wakeThread over s).
Proof.
  intros l p o s over H. unfold wakeThread. repeat match goal with |- context [if ?b then _ else _] => destruct b end; try exact H; apply ginv_setThreads, H.
Qed.

(** The task list may be reordered. *)
Lemma ginv_tasks_perm : forall l p o s t, Permutation t (s_tasks s) -> ginv l p o s -> ginv l p o (setTasks t s).
Proof.
  intros l p o s t P H.
  assert (PP : Permutation (places l (setTasks t s)) (places l s)) by (unfold places; cbn; apply Permutation_app_tail, P).
  destruct H. constructor; auto.
  - apply (Permutation_NoDup (Permutation_sym PP)), g_pnd0.
  - intros i Hi. apply g_plive0, (Permutation_in _ PP), Hi.
  - intros i Hi. rewrite <- (g_zero0 i Hi). split; apply Permutation_in; [exact PP | apply Permutation_sym, PP].
  - intros i Hi E. destruct (g_first0 i Hi E) as (A & B & C). split; [| auto]. destruct A as [A | A]; [left; cbn; apply (Permutation_in _ (Permutation_sym P)), A | right; exact A].
Qed.
Lemma ginv_sort : forall l p o s, ginv l p o s -> ginv l p o (sortTasks s).
Proof. intros l p o s H. unfold sortTasks. apply ginv_tasks_perm; [apply sort_perm | exact H]. Qed.
Lemma ginv_sortIfGrown : forall l p o n s, ginv l p o s -> ginv l p o (sortIfGrown n s).
Proof. intros l p o n s H. unfold sortIfGrown. destruct (Nat.eqb _ _); [exact H | apply ginv_sort, H]. Qed.
(** altTasks and tasks change places: all are external. *)
Lemma ginv_swap : forall s, s_tasks s = [] -> inv s -> inv (setAlt (s_tasks s) (setTasks (s_alt s) s)).
Proof.
  intros s E H. assert (PP : Permutation (places [] (setAlt (s_tasks s) (setTasks (s_alt s) s))) (places [] s)).
  { unfold places. cbn [setAlt setTasks s_tasks s_alt s_run]. rewrite !app_assoc. do 2 apply Permutation_app_tail. apply Permutation_app_comm. }
  unfold inv in *. destruct H. constructor; auto.
  - apply (Permutation_NoDup (Permutation_sym PP)), g_pnd0.
  - intros i Hi. apply g_plive0, (Permutation_in _ PP), Hi.
  - intros i Hi. rewrite <- (g_zero0 i Hi). split; apply Permutation_in; [exact PP | apply Permutation_sym, PP].
  - cbn [setAlt setTasks s_alt]. rewrite E. intros i [].
  - intros i Hi F. destruct (g_first0 i Hi F) as (A & B & C). split; [| auto]. cbn [setAlt setTasks s_tasks s_alt]. tauto.
Qed.

(** A new external context. *)
Lemma ginv_external : forall s over k, 0 <= snd k -> inv s -> inv (startExternal over k s).
Proof.
  intros s over k Hk H. unfold startExternal. set (s1 := newCtx (newExternal k (s_counter (setCounter (s_counter s + 1) s))) (setCounter (s_counter s + 1) s)).
  assert (L : s_live s1 = s_live s ++ [s_next s]) by reflexivity.
  assert (O : forall j, In j (s_live s) -> s_ctx s1 j = s_ctx s j) by (intros j Hj; apply upd_other; generalize (g_lt _ _ _ _ H j Hj); cbn; lia).
  assert (N : s_ctx s1 (s_next s) = newExternal k (s_counter s + 1)) by (apply upd_same).
  assert (F : ~ In (s_next s) (s_live s)) by (intros X; generalize (g_lt _ _ _ _ H _ X); lia).
  assert (W : forall i, owedBy (s_ctx s1) (s_live s1) i = owedBy (s_ctx s) (s_live s) i).
  { intros i. rewrite L, owedBy_app, owedBy_cons, N. change (owedBy (s_ctx s1) [] i) with 0%nat. cbn [newExternal c_notify countIn count_occ]. rewrite !Nat.add_0_r. apply owedBy_ext. intros j Hj. rewrite O; auto. }
  assert (Z0 : owedBy (s_ctx s) (s_live s) (s_next s) = 0%nat) by (apply owedBy_zero; intros j Hj X; apply F; apply (g_wait _ _ _ _ H j _ Hj X)).
  assert (G : forall s2, s_ctx s2 = s_ctx s1 -> s_next s2 = s_next s1 -> s_live s2 = s_live s1 -> s_counter s2 = s_counter s1 -> s_all s2 = s_all s1 -> s_run s2 = s_run s1 ->
    Permutation (s_tasks s2 ++ s_alt s2) (s_next s :: s_tasks s ++ s_alt s) -> (forall i, In i (s_alt s2) -> In i (s_alt s) \/ i = s_next s) -> inv s2).
  { intros s2 E1 E2 E3 E4 E5 E6 P PA. destruct H.
    assert (PP : Permutation (places [] s2) (s_next s :: places [] s)).
    { unfold places. rewrite E6. cbn [app]. rewrite !app_assoc, P. cbn [app]. rewrite <- !app_assoc. reflexivity. }
    assert (C : forall i, In i (s_live s2) -> (In i (s_live s) /\ s_ctx s2 i = s_ctx s i) \/ i = s_next s /\ s_ctx s2 i = newExternal k (s_counter s + 1)).
    { intros i Hi. rewrite E3, L in Hi. apply in_app_iff in Hi. destruct Hi as [Hi | [<- | []]]; [left; rewrite E1, (O i Hi); auto | right; rewrite E1; auto]. }
    assert (LI : forall i, In i (s_live s) -> In i (s_live s2)) by (intros i Hi; rewrite E3, L; apply in_or_app; left; exact Hi).
    unfold inv. constructor.
    - rewrite E3, L. apply (Permutation_NoDup (Permutation_cons_append _ _)). constructor; auto.
    - intros i Hi. rewrite E2. destruct (C i Hi) as [(A & _) | (-> & _)]; [generalize (g_lt0 i A) |]; cbn; lia.
    - apply (Permutation_NoDup (Permutation_sym PP)). constructor; [| exact g_pnd0]. intros X. apply F, g_plive0, X.
    - intros i Hi. apply (Permutation_in _ PP) in Hi. destruct Hi as [<- | Hi]; [rewrite E3, L; apply in_or_app; right; left; reflexivity | apply LI, g_plive0, Hi].
    - intros i Hi. destruct (C i Hi) as [(A & ->) | (-> & ->)].
      + rewrite <- (g_zero0 i A). split; intros X.
        * apply (Permutation_in _ PP) in X. destruct X as [<- | X]; [contradiction | exact X].
        * apply (Permutation_in _ (Permutation_sym PP)). right. exact X.
      + split; [reflexivity | intros _; apply (Permutation_in _ (Permutation_sym PP)); left; reflexivity].
    - intros i Hi NI. rewrite E1, E3, W. destruct (C i Hi) as [(A & B) | (-> & B)]; rewrite E1 in B; rewrite B; [apply g_count0; auto | rewrite Z0; reflexivity].
    - intros i [].
    - intros i Hi. destruct (C i Hi) as [(A & ->) | (-> & ->)]; [apply g_ext0, A | reflexivity].
    - intros i Hi. destruct (C i Hi) as [(A & ->) | (-> & ->)]; [apply g_int0, A | discriminate].
    - intros i Hi. rewrite E1. destruct (PA i Hi) as [A | ->]; [| rewrite N; split; reflexivity].
      rewrite O; [apply g_alt0, A |]. apply g_plive0. unfold places. rewrite !in_app_iff. auto.
    - intros j w Hj Hw. unfold nodeOf. destruct (C j Hj) as [(A & B) | (-> & B)]; rewrite B in *; [| destruct Hw].
      destruct (g_wait0 j w A Hw) as (D & Rk). split; [apply LI, D |]. unfold nodeOf in Rk. rewrite E1, (O w D). exact Rk.
    - intros w [].
    - intros k' i. rewrite E5. change (s_all s1) with (s_all s). rewrite g_all0. split.
      + intros (A & B & D). split; [apply LI, A |]. rewrite E1, (O i A). auto.
      + intros (A & B & D). destruct (C i A) as [(X & Y) | (-> & Y)]; rewrite Y in *; [auto | discriminate B].
    - rewrite E5. exact g_keys0.
    - intros i Hi. rewrite E4. destruct (C i Hi) as [(A & ->) | (-> & ->)]; [generalize (g_order0 i A) |]; cbn; lia.
    - intros i Hi NE. destruct (C i Hi) as [(A & B) | (-> & B)]; rewrite B in NE; [rewrite E6; apply g_reqs0; auto | destruct NE; reflexivity].
    - intros i Hi. unfold nodeOf. destruct (C i Hi) as [(A & ->) | (-> & ->)]; [apply g_rank0, A | constructor].
    - intros i Hi. destruct (C i Hi) as [(A & ->) | (-> & ->)]; [apply g_frame0, A | exact Hk].
    - intros i Hi E. assert (PT : In i (s_tasks s2 ++ s_alt s2) -> In i (s_tasks s2) \/ In i (s_alt s2) \/ In i []) by (rewrite in_app_iff; tauto).
      destruct (C i Hi) as [(A & B) | (-> & B)]; rewrite B in *.
      + destruct (g_first0 i A E) as (X & Y). split; [| exact Y]. apply PT, (Permutation_in _ (Permutation_sym P)). right. apply in_or_app. destruct X as [X | [X | []]]; auto.
      + split; [| auto]. apply PT, (Permutation_in _ (Permutation_sym P)). left. reflexivity. }
  destruct (s_flush s1).
  - apply G; try reflexivity; cbn [setAlt s_tasks s_alt].
    + change (s_next (setCounter (s_counter s + 1) s)) with (s_next s). rewrite app_assoc. apply Permutation_sym, Permutation_cons_append.
    + intros i Hi. apply in_app_iff in Hi. destruct Hi as [A | [A | []]]; [left; exact A | right; symmetry; exact A].
  - apply ginv_wake. apply G; try reflexivity; cbn [setTasks s_tasks s_alt].
    + rewrite <- app_assoc. apply Permutation_sym, (Permutation_middle (s_tasks s) (s_alt s)).
    + auto.
Qed.

(** A context is changed in place. *)
Lemma ginv_setCtx : forall l p o s i c, c_key c = c_key (s_ctx s i) -> c_ext c = c_ext (s_ctx s i) -> c_notify c = c_notify (s_ctx s i) -> c_nreq c = c_nreq (s_ctx s i) ->
  c_order c <= Z.max (c_order (s_ctx s i)) (s_counter s) ->
  (c_first c = true -> c_first (s_ctx s i) = true /\ c_err c = None /\ c_reqs c = []) -> (In i (s_alt s) -> c_first c = true) ->
  (c_reqs c <> [] -> (exists f, In (i, Returned f) (s_run s)) \/ In i l) ->
  Forall (fun k => 0 <= snd k /\ (rank (fst k) < rank (nodeOf s i))%nat) (c_reqs c) ->
  ginv l p o s -> ginv l p o (setCtx i c s).
Proof.
  intros l p o s i c E1 E2 E3 E4 E5 E6 E9 E7 E8 H.
  assert (K : forall j, c_key (s_ctx (setCtx i c s) j) = c_key (s_ctx s j)) by (intros j; cbn [setCtx s_ctx]; unfold upd; destruct (Nat.eqb j i) eqn:E; [apply Nat.eqb_eq in E; subst; auto | reflexivity]).
  assert (X : forall j, c_ext (s_ctx (setCtx i c s) j) = c_ext (s_ctx s j)) by (intros j; cbn [setCtx s_ctx]; unfold upd; destruct (Nat.eqb j i) eqn:E; [apply Nat.eqb_eq in E; subst; auto | reflexivity]).
  assert (N : forall j, c_notify (s_ctx (setCtx i c s) j) = c_notify (s_ctx s j)) by (intros j; cbn [setCtx s_ctx]; unfold upd; destruct (Nat.eqb j i) eqn:E; [apply Nat.eqb_eq in E; subst; auto | reflexivity]).
  assert (Q : forall j, c_nreq (s_ctx (setCtx i c s) j) = c_nreq (s_ctx s j)) by (intros j; cbn [setCtx s_ctx]; unfold upd; destruct (Nat.eqb j i) eqn:E; [apply Nat.eqb_eq in E; subst; auto | reflexivity]).
  assert (W : forall j, owedBy (s_ctx (setCtx i c s)) (s_live (setCtx i c s)) j = owedBy (s_ctx s) (s_live s) j) by (intros j; apply owedBy_ext; intros; apply N).
  destruct H. constructor; auto.
  - intros j Hj. rewrite Q. apply g_zero0, Hj.
  - intros j Hj Hl. rewrite Q, W. apply g_count0; auto.
  - intros j Hj. rewrite W. apply g_limbo0, Hj.
  - intros j Hj. rewrite X, N. apply g_ext0, Hj.
  - intros j Hj. rewrite X, N. apply g_int0, Hj.
  - intros j Hj. rewrite X. destruct (g_alt0 j Hj) as (A & B). split; [exact A |]. cbn [setCtx s_ctx]. unfold upd. destruct (Nat.eqb j i) eqn:E; [apply Nat.eqb_eq in E; subst; apply E9, Hj | exact B].
  - intros j w Hj. unfold nodeOf. rewrite N, !K. apply g_wait0, Hj.
  - intros k j. rewrite X, K. apply g_all0.
  - intros j Hj. cbn [setCtx s_ctx s_counter]. unfold upd. generalize (g_order0 j Hj). destruct (Nat.eqb j i) eqn:E; [apply Nat.eqb_eq in E; subst |]; lia.
  - intros j Hj. cbn [setCtx s_ctx s_run]. unfold upd. destruct (Nat.eqb j i) eqn:E; [apply Nat.eqb_eq in E; subst; apply E7 | apply g_reqs0, Hj].
  - intros j Hj. unfold nodeOf. rewrite K. cbn [setCtx s_ctx]. unfold upd. destruct (Nat.eqb j i) eqn:E; [apply Nat.eqb_eq in E; subst; apply E8 | apply g_rank0, Hj].
  - intros j Hj. rewrite K. apply g_frame0, Hj.
  - intros j Hj. cbn [setCtx s_ctx s_tasks s_alt]. unfold upd. destruct (Nat.eqb j i) eqn:E; [| apply g_first0, Hj].
    apply Nat.eqb_eq in E; subst j. intros F. destruct (E6 F) as (A & B & C). split; [apply g_first0; auto | auto].
Qed.

(** A request of another context. *)
Lemma findKey_In : forall k l i, findKey k l = Some i -> In (k, i) l.
Proof.
  intros k l i. unfold findKey. destruct (find _ l) as [[k' j]|] eqn:E; cbn; [| discriminate]. intros X; injection X as ->.
  apply find_some in E. destruct E as (A & B). cbn in B. apply keyEq_true in B. subst. exact A.
Qed.
Lemma findKey_None : forall k l, findKey k l = None -> ~ In k (map fst l).
Proof.
  intros k l. unfold findKey. destruct (find _ l) as [e|] eqn:E; [discriminate |]. intros _ X. apply in_map_iff in X. destruct X as (e & <- & He).
  apply (find_none _ _ E) in He. assert (Y : keyEq (fst e) (fst e) = true) by (apply keyEq_true; reflexivity). congruence.
Qed.
Lemma ginv_internal : forall over w k s p s', ginv [w] p [] s -> 0 <= snd k -> (rank (fst k) < rank (nodeOf s w))%nat ->
  startInternal over w k s = Ok s' ->
  ginv [w] (S p) [] s' /\ s_ctx s' w = s_ctx s w /\ s_run s' = s_run s.
Proof.
  intros over w k s p s' H Hk Hr. unfold startInternal.
  destruct (Z.ltb_spec (snd k) 0) as [|_]; [discriminate |].
  assert (WL : In w (s_live s)) by (apply (g_plive _ _ _ _ H); unfold places; rewrite !in_app_iff; right; right; right; left; reflexivity).
  destruct (findKey k (s_all s)) as [i|] eqn:E.
  - apply findKey_In in E. apply (g_all _ _ _ _ H) in E. destruct E as (IL & IX & IK).
    assert (IW : i <> w) by (intros ->; unfold nodeOf in Hr; rewrite IK in Hr; lia).
    intros X; apply Ok_inj in X; subst s'. set (c := mkC _ _ _ _ _ _ _ _ _).
    assert (K : forall j, c_key (s_ctx (setCtx i c s) j) = c_key (s_ctx s j)) by (intros j; cbn [setCtx s_ctx]; unfold upd; destruct (Nat.eqb j i) eqn:E; [apply Nat.eqb_eq in E; subst; auto | reflexivity]).
    assert (X : forall j, c_ext (s_ctx (setCtx i c s) j) = c_ext (s_ctx s j)) by (intros j; cbn [setCtx s_ctx]; unfold upd; destruct (Nat.eqb j i) eqn:E; [apply Nat.eqb_eq in E; subst; auto | reflexivity]).
    assert (Q : forall j, c_nreq (s_ctx (setCtx i c s) j) = c_nreq (s_ctx s j)) by (intros j; cbn [setCtx s_ctx]; unfold upd; destruct (Nat.eqb j i) eqn:E; [apply Nat.eqb_eq in E; subst; auto | reflexivity]).
    assert (R : forall j, c_reqs (s_ctx (setCtx i c s) j) = c_reqs (s_ctx s j)) by (intros j; cbn [setCtx s_ctx]; unfold upd; destruct (Nat.eqb j i) eqn:E; [apply Nat.eqb_eq in E; subst; auto | reflexivity]).
    assert (N : forall j, c_notify (s_ctx (setCtx i c s) j) = if Nat.eqb j i then c_notify (s_ctx s i) ++ [w] else c_notify (s_ctx s j)) by (intros j; cbn [setCtx s_ctx]; unfold upd; destruct (Nat.eqb j i); reflexivity).
    assert (W : forall j, owedBy (s_ctx (setCtx i c s)) (s_live s) j = (owedBy (s_ctx s) (s_live s) j + if Nat.eq_dec w j then 1 else 0)%nat).
    { intros j. rewrite (owedBy_split _ _ j i (g_nd _ _ _ _ H) IL), (owedBy_split (s_ctx s) _ j i (g_nd _ _ _ _ H) IL), N, Nat.eqb_refl, countIn_app, countIn_cons.
      rewrite (owedBy_ext (s_ctx s) (s_ctx (setCtx i c s))); [change (countIn [] j) with 0%nat; lia |]. intros j' Hj'. apply In_removeTask in Hj'. rewrite N. destruct (Nat.eqb j' i) eqn:E; [apply Nat.eqb_eq in E; tauto | reflexivity]. }
    split; [| split; [apply upd_other; auto | reflexivity]]. destruct H. constructor; auto.
    + intros j Hj. rewrite Q. apply g_zero0, Hj.
    + intros j Hj Hl. rewrite Q. change (s_live (setCtx i c s)) with (s_live s). rewrite W. destruct (Nat.eq_dec w j) as [-> | _]; [destruct Hl; left; reflexivity |]. rewrite Nat.add_0_r. apply g_count0; auto.
    + intros j [<- | []]. change (s_live (setCtx i c s)) with (s_live s). rewrite W. destruct (Nat.eq_dec w w) as [_ | N']; [| contradiction]. split; [| auto]. destruct (g_limbo0 w (or_introl eq_refl)) as (-> & _). lia.
    + intros j Hj. rewrite X, N. intros Y. destruct (Nat.eqb j i) eqn:E; [apply Nat.eqb_eq in E; subst; congruence | apply g_ext0; auto].
    + intros j Hj. rewrite X, N. intros Y. destruct (Nat.eqb j i) eqn:E; [destruct (c_notify (s_ctx s i)); discriminate | apply g_int0; auto].
    + intros j Hj. rewrite X. destruct (g_alt0 j Hj) as (A & B). split; [exact A |]. cbn [setCtx s_ctx]. unfold upd. destruct (Nat.eqb j i) eqn:E; [apply Nat.eqb_eq in E; subst |]; exact B.
    + intros j w' Hj. unfold nodeOf. rewrite N, !K. destruct (Nat.eqb j i) eqn:E; [| apply g_wait0, Hj]. apply Nat.eqb_eq in E; subst j.
      intros Y. apply in_app_iff in Y. destruct Y as [Y | [<- | []]]; [apply g_wait0; auto |]. split; [exact WL |]. rewrite IK. exact Hr.
    + intros k' j. rewrite X, K. apply g_all0.
    + intros j Hj. cbn [setCtx s_ctx s_counter]. unfold upd. generalize (g_order0 j Hj). destruct (Nat.eqb j i) eqn:E; [apply Nat.eqb_eq in E; subst; cbn [c c_order] |]; lia.
    + intros j Hj. rewrite R. apply g_reqs0, Hj.
    + intros j Hj. unfold nodeOf. rewrite R, K. apply g_rank0, Hj.
    + intros j Hj. rewrite K. apply g_frame0, Hj.
    + intros j Hj. cbn [setCtx s_ctx s_tasks s_alt]. unfold upd. destruct (Nat.eqb j i) eqn:E; [apply Nat.eqb_eq in E; subst j | ]; apply g_first0; assumption.
  - apply findKey_None in E. intros X; apply Ok_inj in X; subst s'. unfold queueTask. cbv zeta.
    set (s1 := newCtx _ s). set (s2 := setTasks _ _).
    assert (L : s_live s2 = s_live s ++ [s_next s]) by reflexivity.
    assert (O : forall j, In j (s_live s) -> s_ctx s2 j = s_ctx s j) by (intros j Hj; apply upd_other; generalize (g_lt _ _ _ _ H j Hj); cbn; lia).
    assert (N : s_ctx s2 (s_next s) = newInternal k (c_order (s_ctx s w)) w) by (apply upd_same).
    assert (F : ~ In (s_next s) (s_live s)) by (intros X; generalize (g_lt _ _ _ _ H _ X); lia).
    assert (W : forall i, owedBy (s_ctx s2) (s_live s2) i = (owedBy (s_ctx s) (s_live s) i + if Nat.eq_dec w i then 1 else 0)%nat).
    { intros i. rewrite L, owedBy_app, owedBy_cons, N. change (owedBy (s_ctx s2) [] i) with 0%nat. cbn [newInternal c_notify]. rewrite countIn_cons. change (countIn [] i) with 0%nat. rewrite !Nat.add_0_r. f_equal.
      apply owedBy_ext. intros j Hj. rewrite O; auto. }
    assert (Z0 : owedBy (s_ctx s) (s_live s) (s_next s) = 0%nat) by (apply owedBy_zero; intros j Hj X; apply F; apply (g_wait _ _ _ _ H j _ Hj X)).
    assert (NW : w <> s_next s) by (intros E'; apply F; rewrite <- E'; exact WL).
    assert (PP : places [w] s2 = s_next s :: places [w] s) by reflexivity.
    assert (C : forall i, In i (s_live s2) -> (In i (s_live s) /\ s_ctx s2 i = s_ctx s i) \/ i = s_next s /\ s_ctx s2 i = newInternal k (c_order (s_ctx s w)) w).
    { intros i Hi. rewrite L in Hi. apply in_app_iff in Hi. destruct Hi as [Hi | [<- | []]]; [left; rewrite (O i Hi); auto | right; auto]. }
    assert (LI : forall i, In i (s_live s) -> In i (s_live s2)) by (intros i Hi; rewrite L; apply in_or_app; left; exact Hi).
    assert (LN : In (s_next s) (s_live s2)) by (rewrite L; apply in_or_app; right; left; reflexivity).
    assert (WR : forall v x, s_ctx (wakeThread v x) = s_ctx x /\ s_run (wakeThread v x) = s_run x).
    { intros v x. unfold wakeThread. repeat match goal with |- context [if ?b then _ else _] => destruct b end; split; reflexivity. }
    destruct (WR (over (s_next s)) s2) as (WR1 & WR2). rewrite WR1, WR2. clear WR WR1 WR2.
    split; [| split; [apply O, WL | reflexivity]]. apply ginv_wake. destruct H. constructor.
    + rewrite L. apply (Permutation_NoDup (Permutation_cons_append _ _)). constructor; auto.
    + intros i Hi. cbn [s2 s1 setTasks setAll newCtx s_next]. destruct (C i Hi) as [(A & _) | (-> & _)]; [generalize (g_lt0 i A) |]; lia.
    + rewrite PP. constructor; [| exact g_pnd0]. intros X. apply F, g_plive0, X.
    + intros i. rewrite PP. intros [<- | Hi]; [exact LN | apply LI, g_plive0, Hi].
    + intros i Hi. rewrite PP. destruct (C i Hi) as [(A & ->) | (-> & ->)].
      * rewrite <- (g_zero0 i A). split; [intros [<- | X]; [contradiction | exact X] | right; assumption].
      * split; [reflexivity | left; reflexivity].
    + intros i Hi NI. rewrite W. destruct (Nat.eq_dec w i) as [-> | _]; [destruct NI; left; reflexivity |]. rewrite Nat.add_0_r.
      destruct (C i Hi) as [(A & ->) | (-> & ->)]; [apply g_count0; auto | rewrite Z0; reflexivity].
    + intros i [<- | []]. rewrite W. destruct (Nat.eq_dec w w) as [_ | N']; [| contradiction]. split; [| auto]. destruct (g_limbo0 w (or_introl eq_refl)) as (-> & _). lia.
    + intros i Hi. destruct (C i Hi) as [(A & ->) | (-> & ->)]; [apply g_ext0, A | discriminate].
    + intros i Hi. destruct (C i Hi) as [(A & ->) | (-> & ->)]; [apply g_int0, A | discriminate].
    + intros i Hi. rewrite O; [apply g_alt0, Hi |]. apply g_plive0. unfold places. rewrite !in_app_iff. auto.
    + intros j w' Hj Hw. unfold nodeOf. destruct (C j Hj) as [(A & B) | (-> & B)]; rewrite B in *.
      * destruct (g_wait0 j w' A Hw) as (D & Rk). split; [apply LI, D |]. unfold nodeOf in Rk. rewrite (O w' D). exact Rk.
      * destruct Hw as [<- | []]. split; [apply LI, WL |]. rewrite (O w WL). exact Hr.
    + intros w' [].
    + intros k' i. cbn [s2 setTasks s_all setAll]. rewrite in_app_iff. change (s_all s1) with (s_all s). rewrite g_all0. split.
      * intros [(A & B & D) | [E' | []]]; [split; [apply LI, A |]; change (s_ctx s2 i) with (s_ctx s2 i); fold s2; rewrite (O i A); auto |].
        injection E' as <- <-. split; [exact LN |]. fold s2. rewrite N. split; reflexivity.
      * fold s2. intros (A & B & D). destruct (C i A) as [(X & Y) | (-> & Y)]; rewrite Y in *; [auto |]. right. left. rewrite <- D. reflexivity.
    + cbn [s2 setTasks s_all setAll]. change (s_all s1) with (s_all s). rewrite map_app. apply (Permutation_NoDup (Permutation_cons_append _ _)). constructor; auto.
    + intros i Hi. change (s_counter s2) with (s_counter s). destruct (C i Hi) as [(A & ->) | (-> & ->)]; [apply (g_order0 i A) | apply (g_order0 w WL)].
    + intros i Hi NE. change (s_run s2) with (s_run s). destruct (C i Hi) as [(A & B) | (-> & B)]; rewrite B in NE; [apply g_reqs0; auto | destruct NE; reflexivity].
    + intros i Hi. unfold nodeOf. destruct (C i Hi) as [(A & ->) | (-> & ->)]; [apply g_rank0, A | constructor].
    + intros i Hi. destruct (C i Hi) as [(A & ->) | (-> & ->)]; [apply g_frame0, A | exact Hk].
    + intros i Hi E'. destruct (C i Hi) as [(A & B) | (-> & B)]; rewrite B in *.
      * destruct (g_first0 i A E') as (X & Y). split; [| exact Y]. destruct X as [X | X]; [left; right; exact X | right; exact X].
      * split; [left; left; reflexivity | auto].
Qed.
Lemma ginv_requests : forall over w ks s p s', ginv [w] p [] s -> Forall (fun k => 0 <= snd k /\ (rank (fst k) < rank (nodeOf s w))%nat) ks ->
  startRequests over w ks s = Ok s' ->
  ginv [w] (List.length ks + p) [] s' /\ s_ctx s' w = s_ctx s w /\ s_run s' = s_run s.
Proof.
  induction ks as [|k r IH]; intros s p s' H F; cbn [startRequests].
  - intros E; apply Ok_inj in E; subst. auto.
  - inversion F as [|? ? (F1 & F2) F3]; subst. unfold obind. destruct (startInternal over w k s) as [s1| |] eqn:E; [|discriminate|discriminate].
    destruct (ginv_internal _ _ _ _ _ _ H F1 F2 E) as (A & B & C). intros E'.
    assert (F' : Forall (fun k => 0 <= snd k /\ (rank (fst k) < rank (nodeOf s1 w))%nat) r) by (unfold nodeOf; rewrite B; exact F3).
    destruct (IH _ _ _ A F' E') as (X & Y & Z). split; [| split; congruence]. cbn [List.length]. replace (S (List.length r) + p)%nat with (List.length r + S p)%nat by lia. exact X.
Qed.
(** It never fails. *)
Lemma startRequests_ok : forall over w ks s, Forall (fun k => 0 <= snd k) ks -> exists s', startRequests over w ks s = Ok s'.
Proof.
  induction ks as [|k r IH]; intros s F; cbn [startRequests]; [eauto |]. inversion F; subst.
  assert (X : exists s1, startInternal over w k s = Ok s1).
  { unfold startInternal. destruct (Z.ltb_spec (snd k) 0); [lia |]. destruct (findKey _ _); eauto. }
  destruct X as (s1 & E). rewrite E. cbn [obind]. apply IH. assumption.
Qed.

(** Handing out a result. *)
Lemma ginv_tell : forall over i r w owed s, ginv [] 0 (w :: owed) s -> c_first (s_ctx s w) = false -> exists s', tell over i r w s = Ok s' /\ ginv [] 0 owed s' /\
  (forall j, c_first (s_ctx s' j) = c_first (s_ctx s j)) /\ (forall j, c_notify (s_ctx s' j) = c_notify (s_ctx s j)).
Proof.
  intros over i r w owed s H NF.
  assert (WL : In w (s_live s)) by (apply (g_owed _ _ _ _ H); left; reflexivity).
  assert (CN := g_count _ _ _ _ H w WL (fun x => x)). rewrite countIn_cons in CN. destruct (Nat.eq_dec w w) as [_ | N]; [| contradiction].
  unfold tell. destruct (c_nreq (s_ctx s w)) as [|n] eqn:E; [lia |]. eexists; split; [reflexivity |].
  set (c := mkC _ _ _ _ n _ _ _ _). set (s1 := addHist (i, w, r) (setCtx w c s)).
  assert (NP : ~ In w (places [] s)) by (rewrite (g_zero _ _ _ _ H w WL); lia).
  assert (K : forall j, c_key (s_ctx s1 j) = c_key (s_ctx s j)) by (intros j; cbn [s1 addHist setCtx s_ctx]; unfold upd; destruct (Nat.eqb j w) eqn:X; [apply Nat.eqb_eq in X; subst; auto | reflexivity]).
  assert (X : forall j, c_ext (s_ctx s1 j) = c_ext (s_ctx s j)) by (intros j; cbn [s1 addHist setCtx s_ctx]; unfold upd; destruct (Nat.eqb j w) eqn:X; [apply Nat.eqb_eq in X; subst; auto | reflexivity]).
  assert (N : forall j, c_notify (s_ctx s1 j) = c_notify (s_ctx s j)) by (intros j; cbn [s1 addHist setCtx s_ctx]; unfold upd; destruct (Nat.eqb j w) eqn:Y; [apply Nat.eqb_eq in Y; subst; auto | reflexivity]).
  assert (RQ : forall j, c_reqs (s_ctx s1 j) = c_reqs (s_ctx s j)) by (intros j; cbn [s1 addHist setCtx s_ctx]; unfold upd; destruct (Nat.eqb j w) eqn:Y; [apply Nat.eqb_eq in Y; subst; auto | reflexivity]).
  assert (OR : forall j, c_order (s_ctx s1 j) = c_order (s_ctx s j)) by (intros j; cbn [s1 addHist setCtx s_ctx]; unfold upd; destruct (Nat.eqb j w) eqn:Y; [apply Nat.eqb_eq in Y; subst; auto | reflexivity]).
  assert (FI : forall j, c_first (s_ctx s1 j) = c_first (s_ctx s j)) by (intros j; cbn [s1 addHist setCtx s_ctx]; unfold upd; destruct (Nat.eqb j w) eqn:Y; [apply Nat.eqb_eq in Y; subst; auto | reflexivity]).
  assert (Q : c_nreq (s_ctx s1 w) = n) by (cbn [s1 addHist setCtx s_ctx]; rewrite upd_same; reflexivity).
  assert (OT : forall j, j <> w -> s_ctx s1 j = s_ctx s j) by (intros j Hj; cbn [s1 addHist setCtx s_ctx]; apply upd_other, Hj).
  assert (W : forall j, owedBy (s_ctx s1) (s_live s1) j = owedBy (s_ctx s) (s_live s) j) by (intros j; apply owedBy_ext; intros; apply N).
  assert (CO : forall s2 : st, s_ctx s2 = s_ctx s1 -> s_next s2 = s_next s1 -> s_alt s2 = s_alt s1 -> s_live s2 = s_live s1 -> s_counter s2 = s_counter s1 -> s_all s2 = s_all s1 -> s_run s2 = s_run s1 ->
    (forall j, In j (s_tasks s2) <-> In j (s_tasks s) \/ n = 0%nat /\ j = w) -> NoDup (places [] s2) -> ginv [] 0 owed s2).
  { intros s2 E1 E2 E3 E4 E5 E6 E7 T ND. destruct H.
    assert (PL : forall j, In j (places [] s2) <-> In j (places [] s) \/ n = 0%nat /\ j = w) by (intros j; unfold places; rewrite !in_app_iff, T, E3, E7; change (s_alt s1) with (s_alt s); change (s_run s1) with (s_run s); tauto).
    constructor; rewrite ?E1, ?E2, ?E4, ?E5, ?E6, ?E7; auto.
    - intros j Hj. apply PL in Hj. destruct Hj as [Hj | (_ & ->)]; [apply g_plive0, Hj | exact WL].
    - intros j Hj. rewrite PL. destruct (Nat.eq_dec j w) as [-> | NE]; [| rewrite (OT j NE), <- (g_zero0 j Hj); tauto]. rewrite Q. tauto.
    - intros j Hj _. rewrite W. destruct (Nat.eq_dec j w) as [-> | NE].
      + rewrite Q. change (countIn owed w) with (countIn owed w). lia.
      + rewrite (OT j NE), (g_count0 j Hj (fun x => x)), countIn_cons. destruct (Nat.eq_dec w j); [congruence | reflexivity].
    - intros j [].
    - intros j Hj. rewrite X, N. apply g_ext0, Hj.
    - intros j Hj. rewrite X, N. apply g_int0, Hj.
    - intros j Hj. rewrite E3 in Hj. rewrite X, FI. apply g_alt0, Hj.
    - intros j w' Hj. unfold nodeOf. rewrite E1, N, !K. apply g_wait0, Hj.
    - intros w' Hw. apply g_owed0. right. exact Hw.
    - intros k j. rewrite X, K. apply g_all0.
    - intros j Hj. rewrite OR. apply g_order0, Hj.
    - intros j Hj. rewrite RQ. apply g_reqs0, Hj.
    - intros j Hj. unfold nodeOf. rewrite E1, RQ, K. apply g_rank0, Hj.
    - intros j Hj. rewrite K. apply g_frame0, Hj.
    - intros j Hj. rewrite FI. intros F. destruct (Nat.eq_dec j w) as [-> | NE]; [congruence |]. rewrite (OT j NE), T, E3. destruct (g_first0 j Hj F) as (A & B). split; [| exact B]. change (s_alt s1) with (s_alt s). tauto. }
  assert (WX : forall v x, s_ctx (wakeThread v x) = s_ctx x).
  { intros v x. unfold wakeThread. repeat match goal with |- context [if ?b then _ else _] => destruct b end; reflexivity. }
  destruct (Nat.eqb n 0) eqn:En.
  - apply Nat.eqb_eq in En. split; [| unfold queueTask; split; intros j; rewrite WX; [apply FI | apply N]].
    unfold queueTask. apply ginv_wake. apply CO; try reflexivity.
    + intros j. cbn [setTasks s_tasks In]. change (s_tasks s1) with (s_tasks s). split; [intros [A | A]; auto | intros [A | (_ & ->)]; auto].
    + unfold places. cbn [setTasks s_tasks s_alt s_run app]. constructor; [exact NP | exact (g_pnd _ _ _ _ H)].
  - apply Nat.eqb_neq in En. split; [| split; [exact FI | exact N]]. apply CO; try reflexivity.
    + intros j. change (s_tasks s1) with (s_tasks s). tauto.
    + exact (g_pnd _ _ _ _ H).
Qed.
Lemma ginv_tellAll : forall over i r ws s, ginv [] 0 ws s -> (forall w, In w ws -> c_first (s_ctx s w) = false) -> exists s', tellAll over i r ws s = Ok s' /\ inv s' /\
  (forall j, c_notify (s_ctx s' j) = c_notify (s_ctx s j)).
Proof.
  induction ws as [|w l IH]; intros s H F; cbn [tellAll]; [exists s; split; [reflexivity | split; [exact H | reflexivity]] |].
  destruct (ginv_tell over i r w l s H (F w (or_introl eq_refl))) as (s1 & -> & H1 & F1 & N1). cbn [obind].
  destruct (IH s1 H1) as (s2 & -> & H2 & N2); [intros w' Hw; rewrite F1; apply F; right; exact Hw |].
  exists s2. split; [reflexivity | split; [exact H2 | intros j; rewrite N2, N1; reflexivity]].
Qed.

(** A context leaves its list and its thread ends it. *)
Lemma ginv_untask : forall s i, inv s -> In i (s_tasks s) -> ginv [i] 0 [] (setTasks (removeTask i (s_tasks s)) s).
Proof.
  intros s i H Hi. assert (IL : In i (s_live s)) by (apply (g_plive _ _ _ _ H); unfold places; apply in_or_app; left; exact Hi).
  assert (NT : NoDup (s_tasks s)) by (generalize (g_pnd _ _ _ _ H); unfold places; clear; induction (s_tasks s) as [|a l IH]; cbn; intros N; constructor; inversion N; subst; [rewrite in_app_iff in H1; tauto | auto]).
  set (s' := setTasks _ s).
  assert (PP : Permutation (places [i] s') (places [] s)).
  { unfold places. cbn [s' setTasks s_tasks s_alt s_run]. rewrite app_nil_r, !app_assoc. rewrite <- Permutation_cons_append. rewrite <- !app_assoc. cbn [app].
    rewrite (app_comm_cons _ _ i). apply Permutation_app_tail, Permutation_sym, removeTask_perm; auto. }
  destruct H. constructor; auto.
  - apply (Permutation_NoDup (Permutation_sym PP)), g_pnd0.
  - intros j Hj. apply g_plive0, (Permutation_in _ PP), Hj.
  - intros j Hj. change (s_ctx s') with (s_ctx s). rewrite <- (g_zero0 j Hj). split; apply Permutation_in; [exact PP | apply Permutation_sym, PP].
  - intros j Hj _. apply g_count0; auto.
  - intros j [<- | []]. split; [| auto]. assert (E : c_nreq (s_ctx s i) = 0%nat) by (apply g_zero0; [exact IL | unfold places; apply in_or_app; left; exact Hi]).
    rewrite (g_count0 i IL (fun x => x)) in E. change (s_ctx s') with (s_ctx s). change (s_live s') with (s_live s). lia.
  - intros j Hj NE. destruct (g_reqs0 j Hj NE) as [A | []]. left. exact A.
  - intros j Hj F. destruct (g_first0 j Hj F) as (A & B). split; [| exact B]. cbn [s' setTasks s_tasks s_alt]. rewrite In_removeTask. destruct (Nat.eq_dec j i) as [-> | NE]; [right; right; left; reflexivity |]. destruct A as [A | [A | []]]; auto.
Qed.
Lemma ginv_unrun : forall s i p, inv s -> phaseOf i (s_run s) = Some p -> ginv [i] 0 [] (setRun (removeRun i (s_run s)) s).
Proof.
  intros s i p H Hp. assert (Hi := phaseOf_fst _ _ _ Hp). assert (IP : In i (places [] s)) by (unfold places; rewrite !in_app_iff; auto).
  assert (IL : In i (s_live s)) by (apply (g_plive _ _ _ _ H), IP).
  assert (NT : NoDup (map fst (s_run s))).
  { generalize (g_pnd _ _ _ _ H). unfold places. rewrite app_nil_r. clear. induction (s_tasks s) as [|a l IH]; [| cbn; intros N; inversion N; auto]. cbn. induction (s_alt s) as [|a l IH]; [auto | cbn; intros N; inversion N; auto]. }
  set (s' := setRun _ s).
  assert (PP : Permutation (places [i] s') (places [] s)).
  { unfold places. cbn [s' setRun s_tasks s_alt s_run]. do 2 apply Permutation_app_head. rewrite app_nil_r, removeRun_fst, <- Permutation_cons_append. apply Permutation_sym, removeTask_perm; auto. }
  destruct H. constructor; auto.
  - apply (Permutation_NoDup (Permutation_sym PP)), g_pnd0.
  - intros j Hj. apply g_plive0, (Permutation_in _ PP), Hj.
  - intros j Hj. change (s_ctx s') with (s_ctx s). rewrite <- (g_zero0 j Hj). split; apply Permutation_in; [exact PP | apply Permutation_sym, PP].
  - intros j Hj _. apply g_count0; auto.
  - intros j [<- | []]. split; [| auto]. assert (E : c_nreq (s_ctx s i) = 0%nat) by (apply g_zero0; auto).
    rewrite (g_count0 i IL (fun x => x)) in E. change (s_ctx s') with (s_ctx s). change (s_live s') with (s_live s). lia.
  - intros j Hj NE. destruct (g_reqs0 j Hj NE) as [(f & A) | []]. destruct (Nat.eq_dec j i) as [-> | NI]; [right; left; reflexivity |].
    left. exists f. cbn [s' setRun s_run]. unfold removeRun. apply filter_In. split; [exact A |]. cbn. apply negb_true_iff, Nat.eqb_neq, NI.
  - intros j Hj F. destruct (g_first0 j Hj F) as ([A | [A | []]] & B); (split; [| exact B]); [left | right; left]; exact A.
Qed.
Lemma retire_live : forall i r s, s_live (retire i r s) = removeTask i (s_live s).
Proof. reflexivity. Qed.
Lemma eraseKey_In : forall k e l, In e (eraseKey k l) <-> In e l /\ fst e <> k.
Proof.
  intros k e l. unfold eraseKey. rewrite filter_In, negb_true_iff. split; intros (A & B); (split; [exact A |]).
  - intros E. assert (X : keyEq k (fst e) = true) by (apply keyEq_true; auto). congruence.
  - destruct (keyEq k (fst e)) eqn:E; [apply keyEq_true in E; congruence | reflexivity].
Qed.
Lemma ginv_finish : forall i r s, ginv [i] 0 [] s -> ginv [] 0 (c_notify (s_ctx s i)) (finish i r s) /\ s_ctx (finish i r s) = s_ctx s /\
  (forall w, In w (c_notify (s_ctx s i)) -> c_first (s_ctx s w) = false).
Proof.
  intros i r s H.
  assert (IP : In i (places [i] s)) by (unfold places; rewrite !in_app_iff; right; right; right; left; reflexivity).
  assert (IL : In i (s_live s)) by (apply (g_plive _ _ _ _ H), IP).
  assert (EC : s_ctx (finish i r s) = s_ctx s) by (unfold finish; cbn [retire s_ctx]; destruct (c_ext (s_ctx s i)); reflexivity).
  assert (EL : s_live (finish i r s) = removeTask i (s_live s)) by (unfold finish; cbn [retire s_ctx]; destruct (c_ext (s_ctx s i)); reflexivity).
  assert (EN : s_next (finish i r s) = s_next s) by (unfold finish; cbn [retire s_ctx]; destruct (c_ext (s_ctx s i)); reflexivity).
  assert (ET : s_tasks (finish i r s) = s_tasks s) by (unfold finish; cbn [retire s_ctx]; destruct (c_ext (s_ctx s i)); reflexivity).
  assert (EA : s_alt (finish i r s) = s_alt s) by (unfold finish; cbn [retire s_ctx]; destruct (c_ext (s_ctx s i)); reflexivity).
  assert (ER : s_run (finish i r s) = s_run s) by (unfold finish; cbn [retire s_ctx]; destruct (c_ext (s_ctx s i)); reflexivity).
  assert (EO : s_counter (finish i r s) = s_counter s) by (unfold finish; cbn [retire s_ctx]; destruct (c_ext (s_ctx s i)); reflexivity).
  assert (NW : forall j, In j (s_live s) -> ~ In i (c_notify (s_ctx s j))) by (apply owedBy_zero, (g_limbo _ _ _ _ H), (or_introl eq_refl)).
  assert (PP : Permutation (places [i] s) (i :: places [] s)).
  { unfold places. rewrite app_nil_r, !app_assoc, <- Permutation_cons_append. reflexivity. }
  assert (NI : ~ In i (places [] s)) by (generalize (Permutation_NoDup PP (g_pnd _ _ _ _ H)); intros X; inversion X; auto).
  assert (EP : places [] (finish i r s) = places [] s) by (unfold places; rewrite ET, EA, ER; reflexivity).
  assert (LV : forall j, In j (s_live (finish i r s)) <-> In j (s_live s) /\ j <> i) by (intros j; rewrite EL; apply In_removeTask).
  assert (AL : forall k j, In (k, j) (s_all (finish i r s)) <-> In (k, j) (s_all s) /\ j <> i).
  { intros k j. unfold finish. cbn [retire s_ctx]. destruct (c_ext (s_ctx s i)) eqn:E.
    - cbn [addCall retire s_all]. split; [intros A; split; [exact A |] | tauto]. intros ->. apply (g_all _ _ _ _ H) in A. destruct A as (_ & A & _). congruence.
    - cbn [setAll s_all retire]. rewrite eraseKey_In. cbn [fst]. assert (AI : In (c_key (s_ctx s i), i) (s_all s)) by (apply (g_all _ _ _ _ H); auto).
      split; intros (A & B); (split; [exact A |]); [intros -> | intros ->]; apply B.
      + apply (g_all _ _ _ _ H) in A. destruct A as (_ & _ & A). auto.
      + generalize (g_keys _ _ _ _ H). revert A AI. clear. induction (s_all s) as [|[k' i'] l IH]; [intros [] |]. cbn. intros A AI N. inversion N; subst.
        assert (Y : forall x, In (c_key (s_ctx s i), x) l -> In (c_key (s_ctx s i)) (map fst l)) by (intros x Hx; apply in_map_iff; exists (c_key (s_ctx s i), x); auto).
        destruct A as [A | A]; destruct AI as [B | B]; [congruence | injection A as -> ->; destruct H1; eapply Y; exact B | injection B as -> ->; destruct H1; eapply Y; exact A | auto]. }
  split; [| split; [exact EC |]].
  - destruct H. constructor; rewrite ?EC, ?EN, ?EO, ?EP, ?ER.
    + rewrite EL. apply NoDup_removeTask, g_nd0.
    + intros j Hj. apply LV in Hj. apply g_lt0. tauto.
    + apply (Permutation_NoDup PP) in g_pnd0. inversion g_pnd0; assumption.
    + intros j Hj. apply LV. split; [apply g_plive0, (Permutation_in _ (Permutation_sym PP)); right; exact Hj | intros ->; contradiction].
    + intros j Hj. apply LV in Hj. destruct Hj as (A & B). rewrite <- (g_zero0 j A). split; intros X.
      * apply (Permutation_in _ (Permutation_sym PP)). right. exact X.
      * apply (Permutation_in _ PP) in X. destruct X as [X | X]; [congruence | exact X].
    + intros j Hj _. apply LV in Hj. destruct Hj as (A & B). rewrite EL, (g_count0 j A); [| intros [X | []]; congruence]. rewrite (owedBy_split _ _ j i g_nd0 IL). change (countIn [] j) with 0%nat. lia.
    + intros j [].
    + intros j Hj. apply LV in Hj. apply g_ext0. tauto.
    + intros j Hj. apply LV in Hj. apply g_int0. tauto.
    + rewrite EA. exact g_alt0.
    + intros j w Hj Hw. apply LV in Hj. destruct Hj as (A & B). destruct (g_wait0 j w A Hw) as (C & D). split; [apply LV; split; [exact C | intros ->; apply (NW j A Hw)] |]. unfold nodeOf in *. rewrite EC. exact D.
    + intros w Hw. destruct (g_wait0 i w IL Hw) as (C & D). apply LV. split; [exact C |]. intros ->. lia.
    + intros k j. rewrite AL, g_all0, LV. tauto.
    + unfold finish. cbn [retire s_ctx]. destruct (c_ext (s_ctx s i)); [exact g_keys0 |]. cbn [setAll s_all retire]. revert g_keys0. clear. unfold eraseKey. induction (s_all s) as [|e l IH]; [auto |].
      cbn. intros N. inversion N; subst. destruct (keyEq (c_key (s_ctx s i)) (fst e)); cbn; [auto |]. constructor; [| auto]. intros X. apply H1. apply in_map_iff in X. destruct X as (y & Y1 & Y2). apply filter_In in Y2. apply in_map_iff. exists y. tauto.
    + intros j Hj. apply LV in Hj. apply g_order0. tauto.
    + intros j Hj NE. apply LV in Hj. destruct Hj as (A & B). destruct (g_reqs0 j A NE) as [X | [X | []]]; [left; exact X | congruence].
    + intros j Hj. apply LV in Hj. unfold nodeOf. rewrite EC. apply g_rank0. tauto.
    + intros j Hj. apply LV in Hj. apply g_frame0. tauto.
    + intros j Hj F. apply LV in Hj. destruct Hj as (A & B). destruct (g_first0 j A F) as (X & Y). split; [| exact Y]. rewrite ET, EA. destruct X as [X | [X | [X | []]]]; [tauto | tauto | congruence].
  - intros w Hw. destruct (g_wait _ _ _ _ H i w IL Hw) as (C & D). destruct (c_first (s_ctx s w)) eqn:F; [| reflexivity]. exfalso.
    destruct (g_first _ _ _ _ H w C F) as (X & _).
    assert (P : In w (places [i] s)) by (unfold places; rewrite !in_app_iff; cbn; tauto).
    apply (g_zero _ _ _ _ H w C) in P.
    assert (NI' : ~ In w [i]) by (intros [E | []]; subst w; lia).
    rewrite (g_count _ _ _ _ H w C NI') in P. assert (Z0 : owedBy (s_ctx s) (s_live s) w = 0%nat) by lia.
    rewrite owedBy_zero in Z0. apply (Z0 i IL Hw).
Qed.
End Inv.
