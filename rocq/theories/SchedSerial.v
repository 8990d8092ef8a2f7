(** Who may be inside a filter, and that there is always something to run. *)
From Coq Require Import ZArith List Bool Arith Lia Permutation.
From Verif Require Import Common SchedSpec Sched SchedInv SchedStep.
Import ListNotations.
Open Scope Z_scope.

Definition updZ_same : forall A (f : Z -> A) n x, updZ f n x n = x.
Proof. intros. unfold updZ. rewrite Z.eqb_refl. reflexivity. Qed.
Lemma updZ_other : forall A (f : Z -> A) n x m, m <> n -> updZ f n x m = f m.
Proof. intros. unfold updZ. destruct (Z.eqb_spec m n); [contradiction | reflexivity]. Qed.

Section Serial.
Variable modeOf : Z -> fmode.
Variable rank : Z -> nat.
Notation inv := (inv rank).
Definition finished (s : st) (i : nat) (f : option Z) : Prop := f <> None \/ c_err (s_ctx s i) <> None.
Definition isInitial (ar : reason) : bool := match ar with arInitial => true | _ => false end.
Record sinv (s : st) : Prop := mkV {
  v_mx : forall nd, s_mutex s nd = true <-> exists i ar, In (i, Calling true ar) (s_run s) /\ nodeOf s i = nd;
  v_one : forall i j a b, In (i, Calling true a) (s_run s) -> In (j, Calling true b) (s_run s) -> nodeOf s i = nodeOf s j -> i = j;
  v_lk : forall i lk ar, In (i, Calling lk ar) (s_run s) -> lk = useSerialLock (modeOf (nodeOf s i)) (isInitial ar);
  v_own : forall nd o, s_sowner s nd = Some o -> isFrameState (modeOf nd) = true /\ In o (s_live s) /\ nodeOf s o = nd /\ c_first (s_ctx s o) = false /\ s_sframe s nd = snd (c_key (s_ctx s o)) /\
          (forall f, In (o, Returned f) (s_run s) -> ~ finished s o f);
  v_free : forall nd, s_sowner s nd = None -> s_sframe s nd = -1;
  v_fs : forall i, In i (s_live s) -> isFrameState (modeOf (nodeOf s i)) = true -> c_first (s_ctx s i) = false ->
         s_sowner s (nodeOf s i) = Some i \/ exists f, In (i, Returned f) (s_run s) /\ finished s i f }.

Lemma sinv_frame : forall s s', inv s -> sinv s -> s_run s' = s_run s -> s_mutex s' = s_mutex s -> s_sframe s' = s_sframe s -> s_sowner s' = s_sowner s ->
  (forall j, In j (s_live s) -> In j (s_live s') /\ c_key (s_ctx s' j) = c_key (s_ctx s j) /\ c_first (s_ctx s' j) = c_first (s_ctx s j)) ->
  (forall j, In j (s_live s') -> In j (s_live s) \/ c_first (s_ctx s' j) = true) ->
  (forall j, In j (map fst (s_run s)) -> c_err (s_ctx s' j) = c_err (s_ctx s j)) -> sinv s'.
Proof.
  intros s s' G H E1 E2 E3 E4 H1 H2 H3.
  assert (N : forall j, In j (s_live s) -> nodeOf s' j = nodeOf s j) by (intros j Hj; unfold nodeOf; destruct (H1 j Hj) as (_ & -> & _); reflexivity).
  assert (RL : forall j p, In (j, p) (s_run s) -> In j (s_live s)) by (intros j p Hj; apply (run_live rank _ _ G), in_map_iff; exists (j, p); auto).
  assert (FN : forall j f, In (j, Returned f) (s_run s) -> (finished s' j f <-> finished s j f)).
  { intros j f Hj. unfold finished. rewrite (H3 j); [reflexivity |]. apply in_map_iff. exists (j, Returned f). auto. }
  destruct H. constructor; rewrite ?E1, ?E2, ?E3, ?E4; auto.
  - intros nd. rewrite v_mx0. split; intros (i & ar & A & B); exists i, ar; (split; [exact A |]); [rewrite N | rewrite N in B]; eauto.
  - intros i j a b A B C. rewrite (N i), (N j) in C by eauto. eauto.
  - intros i lk ar A. rewrite N by eauto. eauto.
  - intros nd o A. destruct (v_own0 nd o A) as (B1 & B2 & B3 & B4 & B5 & B6). destruct (H1 o B2) as (C1 & C2 & C3). rewrite (N o B2), C2, C3. repeat split; auto. intros f D. rewrite (FN o f D). auto.
  - intros i A B C. destruct (H2 i A) as [D | D]; [| congruence]. rewrite (N i D) in *. destruct (H1 i D) as (_ & _ & C3). rewrite C3 in C.
    destruct (v_fs0 i D B C) as [X | (f & X & Y)]; [left; exact X | right; exists f; split; [exact X | apply FN; assumption]].
Qed.
Lemma In_removeRun : forall i j p l, In (j, p) (removeRun i l) <-> In (j, p) l /\ j <> i.
Proof. intros. unfold removeRun. rewrite filter_In. cbn [fst]. rewrite negb_true_iff, Nat.eqb_neq. reflexivity. Qed.
(** A context that is not inside its filter ends. *)
Lemma sinv_retire : forall s s' i, inv s -> sinv s -> (c_first (s_ctx s i) = true \/ exists f, In (i, Returned f) (s_run s) /\ finished s i f) ->
  s_run s' = removeRun i (s_run s) -> s_live s' = removeTask i (s_live s) -> s_ctx s' = s_ctx s -> s_mutex s' = s_mutex s -> s_sframe s' = s_sframe s -> s_sowner s' = s_sowner s -> sinv s'.
Proof.
  intros s s' i G H D E1 E2 E3 E4 E5 E6.
  assert (NC : forall lk ar, ~ In (i, Calling lk ar) (s_run s)).
  { intros lk ar A. destruct D as [D | (f & D & _)].
    - rewrite (run_first rank s i G) in D; [discriminate |]. apply in_map_iff. exists (i, Calling lk ar). auto.
    - assert (X := In_phaseOf _ _ _ (inv_runs rank _ G) A). rewrite (In_phaseOf _ _ _ (inv_runs rank _ G) D) in X. discriminate. }
  assert (NO : forall nd, s_sowner s nd <> Some i).
  { intros nd A. destruct (v_own _ H nd i A) as (B1 & B2 & B3 & B4 & B5 & B6). destruct D as [D | (f & D & F)]; [congruence | apply (B6 f D F)]. }
  assert (FN : forall j f, finished s' j f <-> finished s j f) by (intros; unfold finished; rewrite E3; reflexivity).
  unfold nodeOf in *. destruct H. unfold nodeOf in *. constructor; unfold nodeOf; rewrite ?E1, ?E2, ?E3, ?E4, ?E5, ?E6; auto.
  - intros nd. rewrite v_mx0. split; intros (j & ar & A & B); exists j, ar; (split; [| exact B]); apply In_removeRun in A || apply In_removeRun; [| tauto].
    split; [exact A |]. intros ->. apply (NC _ _ A).
  - intros j k a b A B. apply In_removeRun in A, B. apply v_one0 with a b; tauto.
  - intros j lk ar A. apply In_removeRun in A. apply v_lk0. tauto.
  - intros nd o A. destruct (v_own0 nd o A) as (B1 & B2 & B3 & B4 & B5 & B6). repeat split; auto.
    + apply In_removeTask. split; [exact B2 |]. intros ->. apply (NO nd A).
    + intros f X. apply In_removeRun in X. rewrite FN. apply B6. tauto.
  - intros j A B C. apply In_removeTask in A. destruct A as (A & NE). destruct (v_fs0 j A B C) as [X | (f & X & Y)]; [left; exact X |]. right. exists f. rewrite FN, In_removeRun. auto.
Qed.
Lemma sinv_unrun : forall s i f, inv s -> sinv s -> In (i, Returned f) (s_run s) -> ~ finished s i f -> sinv (setRun (removeRun i (s_run s)) s).
Proof.
  intros s i f G H D F.
  assert (NC : forall lk ar, ~ In (i, Calling lk ar) (s_run s)).
  { intros lk ar A. assert (X := In_phaseOf _ _ _ (inv_runs rank _ G) A). rewrite (In_phaseOf _ _ _ (inv_runs rank _ G) D) in X. discriminate. }
  destruct H. constructor; auto; cbn [setRun s_run].
  - intros nd. change (s_mutex (setRun (removeRun i (s_run s)) s)) with (s_mutex s). rewrite v_mx0. split; intros (j & ar & A & B); exists j, ar; (split; [| exact B]); apply In_removeRun in A || apply In_removeRun; [| tauto].
    split; [exact A |]. intros ->. apply (NC _ _ A).
  - intros j k a b A B. apply In_removeRun in A, B. apply v_one0 with a b; tauto.
  - intros j lk ar A. apply In_removeRun in A. apply v_lk0. tauto.
  - intros nd o A. destruct (v_own0 nd o A) as (B1 & B2 & B3 & B4 & B5 & B6). repeat split; auto. intros f' X. apply In_removeRun in X. apply B6. tauto.
  - intros j A B C. destruct (v_fs0 j A B C) as [X | (f' & X & Y)]; [left; exact X |]. right. exists f'. split; [| exact Y]. apply In_removeRun. split; [exact X |]. intros ->.
    assert (Z := In_phaseOf _ _ _ (inv_runs rank _ G) X). rewrite (In_phaseOf _ _ _ (inv_runs rank _ G) D) in Z. injection Z as <-. contradiction.
Qed.

(** ** Taking a task *)
Definition fits_lock (s : st) (i : nat) : Prop :=
  let nd := nodeOf s i in
  (useSerialLock (modeOf nd) (c_first (s_ctx s i)) = true -> s_mutex s nd = false) /\
  (isFrameState (modeOf nd) = true -> s_sframe s nd = -1 \/ s_sowner s nd = Some i).
Lemma scan_fits : forall s cached fits l seen i, scan modeOf s cached fits l seen = Some (i, None) -> fits_lock s i.
Proof.
  induction l as [|a r IH]; intros seen i; cbn [scan]; [discriminate |].
  destruct (if c_first (s_ctx s a) then cached a else None); [discriminate |]. cbv zeta.
  destruct (negb _ && existsb _ _); [apply IH |]. destruct (_ && negb (fits a)); [apply IH |].
  destruct (useSerialLock _ _ && _) eqn:E1; [apply IH |]. destruct (isFrameState _ && _ && _) eqn:E2; [apply IH |].
  intros E; injection E as <-. unfold fits_lock, nodeOf. split.
  - intros U. rewrite U in E1. exact E1.
  - intros F. rewrite F in E2. cbn [andb] in E2. apply andb_false_iff in E2. destruct E2 as [E2 | E2]; apply negb_false_iff in E2; [left; apply Z.eqb_eq, E2 | right].
    destruct (s_sowner s (fst (c_key (s_ctx s a)))) as [o|]; [apply Nat.eqb_eq in E2; subst; reflexivity | discriminate].
Qed.
Lemma fs_lock : forall m first, isFrameState m = true -> useSerialLock m first = true.
Proof. intros [] first; try discriminate; reflexivity. Qed.
Lemma sinv_take : forall s i, inv s -> sinv s -> In i (s_tasks s) -> fits_lock s i -> sinv (take modeOf i s).
Proof.
  intros s i G H Hi (FM & FS). assert (L := task_live rank s i G Hi).
  assert (NR : ~ In i (map fst (s_run s))) by (apply (task_not_run rank); assumption).
  assert (NR' : forall p, ~ In (i, p) (s_run s)) by (intros p X; apply NR, in_map_iff; exists (i, p); auto).
  assert (FE : c_first (s_ctx s i) = true -> c_err (s_ctx s i) = None) by (intros X; apply (g_first _ _ _ _ _ G i L X)).
  assert (F0 : 0 <= snd (c_key (s_ctx s i))) by (apply (g_frame _ _ _ _ _ G i L)).
  unfold take. cbv zeta. set (nd := nodeOf s i) in *. change (fst (c_key (s_ctx s i))) with nd. set (lk := useSerialLock (modeOf nd) (c_first (s_ctx s i))) in *.
  set (s1 := if lk then _ else s). set (ar := reasonOf (s_ctx s i)).
  set (s' := setRun _ _).
  assert (E1 : s_run s' = s_run s ++ [(i, Calling lk ar)]) by (unfold s', s1; destruct lk; [destruct (_ && _) |]; reflexivity).
  assert (E2 : s_live s' = s_live s) by (unfold s', s1; destruct lk; [destruct (_ && _) |]; reflexivity).
  assert (E3 : s_ctx s' = upd (s_ctx s) i (setFirst (s_ctx s i))) by (unfold s', s1; destruct lk; [destruct (_ && _) |]; reflexivity).
  assert (E4 : s_mutex s' = if lk then updZ (s_mutex s) nd true else s_mutex s) by (unfold s', s1; destruct lk; [destruct (_ && _) |]; reflexivity).
  assert (E5 : s_sframe s' = if isFrameState (modeOf nd) && (s_sframe s nd =? -1) then updZ (s_sframe s) nd (snd (c_key (s_ctx s i))) else s_sframe s).
  { unfold s', s1. destruct lk eqn:LK; [destruct (_ && _); reflexivity |]. destruct (isFrameState (modeOf nd)) eqn:X; [| reflexivity]. unfold lk in LK. rewrite (fs_lock _ _ X) in LK. discriminate. }
  assert (E6 : s_sowner s' = if isFrameState (modeOf nd) && (s_sframe s nd =? -1) then updZ (s_sowner s) nd (Some i) else s_sowner s).
  { unfold s', s1. destruct lk eqn:LK; [destruct (_ && _); reflexivity |]. destruct (isFrameState (modeOf nd)) eqn:X; [| reflexivity]. unfold lk in LK. rewrite (fs_lock _ _ X) in LK. discriminate. }
  clearbody s'. clear s1.
  assert (K : forall j, c_key (s_ctx s' j) = c_key (s_ctx s j)) by (intros j; rewrite E3; unfold upd; destruct (Nat.eqb j i) eqn:X; [apply Nat.eqb_eq in X; subst; reflexivity | reflexivity]).
  assert (N : forall j, nodeOf s' j = nodeOf s j) by (intros j; unfold nodeOf; rewrite K; reflexivity).
  assert (O : forall j, j <> i -> s_ctx s' j = s_ctx s j) by (intros j Hj; rewrite E3; apply upd_other, Hj).
  assert (I : s_ctx s' i = setFirst (s_ctx s i)) by (rewrite E3; apply upd_same).
  assert (FI : c_first (s_ctx s' i) = false).
  { rewrite I. cbn [setFirst c_first]. destruct (c_err (s_ctx s i)); [| reflexivity]. destruct (c_first (s_ctx s i)); [discriminate (FE eq_refl) | reflexivity]. }
  assert (RI : forall j p, In (j, p) (s_run s') <-> In (j, p) (s_run s) \/ (j = i /\ p = Calling lk ar)).
  { intros j p. rewrite E1, in_app_iff. cbn [In]. split; [intros [A | [A | []]]; [auto | injection A as <- <-; auto] | intros [A | (-> & ->)]; auto]. }
  assert (RN : forall j p, In (j, p) (s_run s) -> j <> i) by (intros j p A ->; apply (NR' p A)).
  assert (FN : forall j f, finished s' j f <-> finished s j f).
  { intros j f. unfold finished. destruct (Nat.eq_dec j i) as [-> | NE]; [rewrite I; reflexivity | rewrite (O j NE); reflexivity]. }
  assert (NM : lk = true -> forall j a, In (j, Calling true a) (s_run s) -> nodeOf s j <> nd).
  { intros X j a A B. assert (Y : s_mutex s nd = true) by (apply (v_mx _ H); exists j, a; auto). rewrite (FM X) in Y. discriminate. }
  destruct H. constructor.
  - intros nd'. rewrite E4. transitivity ((exists j a, In (j, Calling true a) (s_run s) /\ nodeOf s j = nd') \/ (lk = true /\ nd = nd')).
    + rewrite <- v_mx0. destruct lk; [| split; [auto | intros [A | (A & _)]; [exact A | discriminate]]]. unfold updZ. destruct (Z.eqb_spec nd' nd) as [-> | NE]; [split; auto |]. split; [auto | intros [A | (_ & A)]; [exact A | congruence]].
    + split.
      * intros [(j & a & A & B) | (A & B)]; [exists j, a; rewrite RI, N; auto | exists i, ar; rewrite RI, N, A; auto].
      * intros (j & a & A & B). rewrite N in B. apply RI in A. destruct A as [A | (-> & A)]; [left; exists j, a; auto | right; injection A as <- <-; auto].
  - intros j k a b A B C. rewrite !N in C. apply RI in A, B. destruct A as [A | (-> & A)]; destruct B as [B | (-> & B)]; [eapply v_one0; eassumption | | | reflexivity].
    + injection B as B _. exfalso. apply (NM (eq_sym B) j a A). exact C.
    + injection A as A _. exfalso. apply (NM (eq_sym A) k b B). symmetry. exact C.
  - intros j lk' ar' A. rewrite N. apply RI in A. destruct A as [A | (-> & A)]; [apply v_lk0, A |]. injection A as -> ->. unfold lk. fold nd. f_equal. unfold ar, reasonOf.
    destruct (c_first (s_ctx s i)) eqn:X; [rewrite (FE eq_refl); reflexivity | destruct (c_err (s_ctx s i)); reflexivity].
  - intros nd' o. rewrite E5, E6, E2, N, K.
    assert (BASE : s_sowner s nd' = Some o -> isFrameState (modeOf nd') = true /\ In o (s_live s) /\ nodeOf s o = nd' /\ c_first (s_ctx s' o) = false /\ s_sframe s nd' = snd (c_key (s_ctx s o)) /\ (forall f, In (o, Returned f) (s_run s') -> ~ finished s' o f)).
    { intros A. destruct (v_own0 nd' o A) as (B1 & B2 & B3 & B4 & B5 & B6). repeat split; auto.
      - destruct (Nat.eq_dec o i) as [-> | NE]; [exact FI | rewrite (O o NE); exact B4].
      - intros f X. apply RI in X. rewrite FN. destruct X as [X | (_ & X)]; [apply B6, X | discriminate]. }
    destruct (isFrameState (modeOf nd) && (s_sframe s nd =? -1)) eqn:X; [| exact BASE]. unfold updZ. destruct (Z.eqb_spec nd' nd) as [-> | NE]; [| exact BASE].
    intros Y; injection Y as <-. apply andb_true_iff in X. destruct X as (X & _). repeat split; auto. intros f Y. apply RI in Y. destruct Y as [Y | (_ & Y)]; [destruct (NR' _ Y) | discriminate].
  - intros nd'. rewrite E5, E6. destruct (_ && _); [| apply v_free0]. unfold updZ. destruct (Z.eqb_spec nd' nd); [discriminate | apply v_free0].
  - intros j. rewrite E2, N, E6. intros A B C.
    assert (BASE : j <> i -> s_sowner s (nodeOf s j) = Some j \/ (exists f, In (j, Returned f) (s_run s') /\ finished s' j f)).
    { intros NE. rewrite (O j NE) in C. destruct (v_fs0 j A B C) as [X | (f & X & Y)]; [left; exact X | right; exists f; rewrite RI, FN; auto]. }
    destruct (Nat.eq_dec j i) as [-> | NE].
    + fold nd in B |- *. rewrite B. cbn [andb]. left. destruct (FS B) as [X | X].
      * rewrite X. cbn. apply updZ_same.
      * destruct (Z.eqb_spec (s_sframe s nd) (-1)) as [_ | _]; [apply updZ_same | exact X].
    + destruct (isFrameState (modeOf nd) && (s_sframe s nd =? -1)) eqn:X; [| apply BASE, NE]. destruct (Z.eq_dec (nodeOf s j) nd) as [E | E]; [| rewrite updZ_other by exact E; apply BASE, NE].
      destruct (BASE NE) as [Y | Y]; [| right; exact Y]. exfalso. apply andb_true_iff in X. destruct X as (_ & X). apply Z.eqb_eq in X. rewrite E in Y.
      destruct (v_own0 nd j Y) as (_ & B2 & _ & _ & B5 & _). generalize (g_frame _ _ _ _ _ G j B2). lia.
Qed.

(** ** Leaving a filter *)
Lemma sinv_returns : forall s i x s', inv s -> sinv s -> returns modeOf i x s = Ok s' -> sinv s'.
Proof.
  intros s i x s' G H. unfold returns. destruct (phaseOf i (s_run s)) as [[lk ar | f0]|] eqn:P; [|discriminate|discriminate].
  cbv zeta. set (f := match x with RFrame f => Some f | _ => None end). set (c := mkC _ _ _ _ _ _ _ _ _).
  destruct (match f with Some _ => hasError c | None => false end); [discriminate |]. intros E; apply Ok_inj in E; subst s'.
  assert (IR := phaseOf_fst _ _ _ P). assert (IL := run_live rank _ _ G IR). assert (FF := run_first rank _ _ G IR). assert (IC := phaseOf_In _ _ _ P).
  change (fst (c_key (s_ctx s i))) with (nodeOf s i). set (nd := nodeOf s i) in *.
  set (s1 := match x with RError m => addOwn (i, m) s | _ => s end). set (done := match f with Some _ => true | None => hasError c end).
  set (s' := if lk then _ else _).
  assert (E1 : s_run s' = setPhase i (Returned f) (s_run s)) by (unfold s', s1; destruct x, lk; try destruct (_ && _); reflexivity).
  assert (E2 : s_live s' = s_live s) by (unfold s', s1; destruct x, lk; try destruct (_ && _); reflexivity).
  assert (E3 : s_ctx s' = upd (s_ctx s) i c) by (unfold s', s1; destruct x, lk; try destruct (_ && _); reflexivity).
  assert (E4 : s_mutex s' = if lk then updZ (s_mutex s) nd false else s_mutex s) by (unfold s', s1; destruct x, lk; try destruct (_ && _); reflexivity).
  assert (LKF : isFrameState (modeOf nd) = true -> lk = true) by (intros X; rewrite (v_lk _ H _ _ _ IC); apply fs_lock; exact X).
  assert (E5 : s_sframe s' = if done && isFrameState (modeOf nd) then updZ (s_sframe s) nd (-1) else s_sframe s).
  { assert (X : s_sframe s' = if lk then if done && isFrameState (modeOf nd) then updZ (s_sframe s) nd (-1) else s_sframe s else s_sframe s) by (unfold s', s1; destruct x, lk; try destruct (_ && _); reflexivity).
    rewrite X. destruct (isFrameState (modeOf nd)); [rewrite (LKF eq_refl); reflexivity | rewrite andb_false_r; destruct lk; reflexivity]. }
  assert (E6 : s_sowner s' = if done && isFrameState (modeOf nd) then updZ (s_sowner s) nd None else s_sowner s).
  { assert (X : s_sowner s' = if lk then if done && isFrameState (modeOf nd) then updZ (s_sowner s) nd None else s_sowner s else s_sowner s) by (unfold s', s1; destruct x, lk; try destruct (_ && _); reflexivity).
    rewrite X. destruct (isFrameState (modeOf nd)); [rewrite (LKF eq_refl); reflexivity | rewrite andb_false_r; destruct lk; reflexivity]. }
  clearbody s'. clear s1.
  assert (K : forall j, c_key (s_ctx s' j) = c_key (s_ctx s j)) by (intros j; rewrite E3; unfold upd; destruct (Nat.eqb j i) eqn:X; [apply Nat.eqb_eq in X; subst; reflexivity | reflexivity]).
  assert (FI : forall j, c_first (s_ctx s' j) = c_first (s_ctx s j)) by (intros j; rewrite E3; unfold upd; destruct (Nat.eqb j i) eqn:X; [apply Nat.eqb_eq in X; subst; reflexivity | reflexivity]).
  assert (N : forall j, nodeOf s' j = nodeOf s j) by (intros j; unfold nodeOf; rewrite K; reflexivity).
  assert (O : forall j, j <> i -> s_ctx s' j = s_ctx s j) by (intros j Hj; rewrite E3; apply upd_other, Hj).
  assert (I : s_ctx s' i = c) by (rewrite E3; apply upd_same).
  assert (RC : forall j l a, In (j, Calling l a) (s_run s') <-> In (j, Calling l a) (s_run s) /\ j <> i).
  { intros j l a. rewrite E1, In_setPhase. split; [intros [(A & B) | (_ & A & _)]; [auto | discriminate] | intros (A & B); auto]. }
  assert (RR : forall j f', In (j, Returned f') (s_run s') <-> (j <> i /\ In (j, Returned f') (s_run s)) \/ (j = i /\ f' = f)).
  { intros j f'. rewrite E1, In_setPhase. split; [intros [(A & B) | (A & B & _)]; [auto | injection B as ->; auto] | intros [A | (A & ->)]; auto]. }
  assert (FO : forall j f', j <> i -> (finished s' j f' <-> finished s j f')) by (intros j f' NE; unfold finished; rewrite (O j NE); reflexivity).
  assert (FD : finished s' i f <-> done = true).
  { unfold finished, done, hasError. rewrite I. destruct f; [split; [reflexivity | left; discriminate] |]. destruct (c_err c); split; try reflexivity; try discriminate; [right; discriminate | intros [A | A]; congruence]. }
  assert (CA : lk = true -> forall j a, In (j, Calling true a) (s_run s) -> nodeOf s j = nd -> j = i).
  { intros X j a A B. rewrite X in IC. exact (v_one _ H j i a ar A IC B). }
  assert (CU : forall l a, In (i, Calling l a) (s_run s) -> l = lk /\ a = ar).
  { intros l a A. assert (X := In_phaseOf _ _ _ (inv_runs rank _ G) A). rewrite P in X. injection X as <- <-. auto. }
  assert (OW : isFrameState (modeOf nd) = true -> s_sowner s nd = Some i).
  { intros X. destruct (v_fs _ H i IL X FF) as [Y | (f' & Y & _)]; [exact Y |]. assert (Z := In_phaseOf _ _ _ (inv_runs rank _ G) Y). rewrite P in Z. discriminate. }
  destruct H. constructor.
  - intros nd'. rewrite E4. split.
    + intros A. assert (B : s_mutex s nd' = true /\ (lk = true -> nd' <> nd)).
      { destruct lk; [| split; [exact A | discriminate]]. unfold updZ in A. destruct (Z.eqb_spec nd' nd); [discriminate | auto]. }
      destruct B as (B & C). apply v_mx0 in B. destruct B as (j & a & B & D). exists j, a. rewrite RC, N. split; [| exact D]. split; [exact B |]. intros ->. destruct (CU _ _ B) as (X & _). apply (C (eq_sym X)). symmetry. exact D.
    + intros (j & a & A & B). apply RC in A. destruct A as (A & NE). rewrite N in B. assert (M : s_mutex s nd' = true) by (apply v_mx0; exists j, a; auto).
      destruct lk; [| exact M]. rewrite updZ_other; [exact M |]. intros ->. apply NE, (CA eq_refl j a A B).
  - intros j k a b A B C. rewrite !N in C. apply RC in A, B. eapply v_one0; [apply A | apply B | exact C].
  - intros j l a A. rewrite N. apply RC in A. apply v_lk0. tauto.
  - intros nd' o. rewrite E5, E6, E2, N, FI, K. destruct (done && isFrameState (modeOf nd)) eqn:X.
    + unfold updZ. destruct (Z.eqb_spec nd' nd) as [-> | NE]; [discriminate |]. intros A. destruct (v_own0 nd' o A) as (B1 & B2 & B3 & B4 & B5 & B6). repeat split; auto.
      assert (NI : o <> i) by (intros ->; apply NE; symmetry; exact B3). intros f' Y. apply RR in Y. destruct Y as [(_ & Y) | (Y & _)]; [rewrite FO by exact NI; apply B6, Y | contradiction].
    + intros A. destruct (v_own0 nd' o A) as (B1 & B2 & B3 & B4 & B5 & B6). repeat split; auto. intros f' Y. apply RR in Y. destruct Y as [(NI & Y) | (-> & ->)]; [rewrite FO by exact NI; apply B6, Y |].
      rewrite FD. intros Z. rewrite Z in X. cbn [andb] in X. fold nd in B3. rewrite B3 in X. congruence.
  - intros nd'. rewrite E5, E6. destruct (_ && _); [| apply v_free0]. unfold updZ. destruct (Z.eqb_spec nd' nd); [reflexivity | apply v_free0].
  - intros j. rewrite E2, N, FI, E6. intros A B C. destruct (Nat.eq_dec j i) as [-> | NE].
    + fold nd in B |- *. rewrite B, andb_true_r. destruct done eqn:D; [right; exists f; rewrite RR, FD; auto | left; apply OW, B].
    + destruct (v_fs0 j A B C) as [X | (f' & X & Y)]; [| right; exists f'; rewrite RR, FO by exact NE; auto].
      left. destruct (_ && _) eqn:D; [| exact X]. rewrite updZ_other; [exact X |]. intros Z. apply andb_true_iff in D. destruct D as (_ & D). rewrite Z in X. rewrite (OW D) in X. congruence.
Qed.
End Serial.
