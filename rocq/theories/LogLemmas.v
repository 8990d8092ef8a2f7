(** Who is told what, and who is freed. *)
From Coq Require Import String ZArith List Bool Lia Permutation.
From Verif Require Import Common LogSpec Log.
Import ListNotations.
Open Scope Z_scope.

Lemma toldTo_app : forall i a b, toldTo i (a ++ b) = toldTo i a ++ toldTo i b.
Proof. intros. unfold toldTo. apply flat_map_app. Qed.
Lemma freed_app : forall i a b, freedTimes i (a ++ b) = (freedTimes i a + freedTimes i b)%nat.
Proof. intros. unfold freedTimes. rewrite filter_app, app_length. reflexivity. Qed.
Lemma mem_In : forall i l, mem i l = true <-> In i l.
Proof. intros i l. unfold mem. rewrite existsb_exists. split; [intros (x & H & E); apply Nat.eqb_eq in E; subst; exact H | intros H; exists i; split; [exact H | apply Nat.eqb_refl]]. Qed.
Lemma mem_false : forall i l, mem i l = false <-> ~ In i l.
Proof. intros i l. rewrite <- mem_In. destruct (mem i l); split; congruence. Qed.
Lemma mem_perm : forall i a b, Permutation a b -> mem i a = mem i b.
Proof. intros i a b P. destruct (mem i b) eqn:E; [apply mem_In; apply mem_In in E; exact (Permutation_in _ (Permutation_sym P) E) | apply mem_false; apply mem_false in E; intros H; apply E; exact (Permutation_in _ P H)]. Qed.
Lemma told_each : forall i m l, NoDup l -> toldTo i (map (fun h => Told h m) l) = when (mem i l) [m].
Proof.
  intros i m l N. induction N as [|h l H N IH]; [reflexivity |]. cbn [map toldTo flat_map mem existsb]. fold (toldTo i (map (fun h => Told h m) l)). fold (mem i l). rewrite IH.
  destruct (Nat.eqb_spec i h); [subst; apply mem_false in H; rewrite H; reflexivity | reflexivity].
Qed.
Lemma told_own : forall i h ms, toldTo i (map (Told h) ms) = when (Nat.eqb i h) ms.
Proof. intros i h ms. induction ms as [|m ms IH]; [destruct (Nat.eqb i h); reflexivity |]. cbn [map toldTo flat_map]. fold (toldTo i (map (Told h) ms)). rewrite IH. destruct (Nat.eqb i h); reflexivity. Qed.
Lemma freed_told : forall i m l, freedTimes i (map (fun h => Told h m) l) = 0%nat.
Proof. intros i m l. unfold freedTimes. induction l as [|a l IH]; [reflexivity | exact IH]. Qed.
Lemma freed_own : forall i h ms, freedTimes i (map (Told h) ms) = 0%nat.
Proof. intros i h ms. unfold freedTimes. induction ms as [|a l IH]; [reflexivity | exact IH]. Qed.
Lemma filter_perm : forall (f : nat -> bool) a b, Permutation a b -> Permutation (filter f a) (filter f b).
Proof.
  intros f a b P. induction P; cbn [filter]; try destruct (f x); try destruct (f y); try constructor; auto. eapply perm_trans; eauto.
Qed.
Lemma nobody_perm : forall a b, Permutation a b -> nobody a = nobody b.
Proof. intros a b P. destruct a, b; try reflexivity; [apply Permutation_nil in P; discriminate | apply Permutation_sym, Permutation_nil in P; discriminate]. Qed.

Section Facts.
Variable addr : nat -> Z.
Variable hasFree : nat -> bool.
Variable freeLogs : nat -> list msg.
Notation ins := (insert addr).
Lemma insert_perm : forall h l, Permutation (ins h l) (h :: l).
Proof. intros h l. induction l as [|x r IH]; [apply Permutation_refl |]. cbn [insert]. destruct (addr h <? addr x); [apply Permutation_refl |]. eapply perm_trans; [apply perm_skip, IH | apply perm_swap]. Qed.

(** ** What holds whatever the callbacks log: handlers are numbered below [next], all different, and what is stored was said while nobody listened. *)
Record inv (s : st) : Prop := { i_nodup : NoDup (s_handlers s); i_next : Forall (fun h => (h < s_next s)%nat) (s_handlers s); i_stored : s_handlers s <> [] -> s_stored s = []; i_max : (length (s_stored s) <= maxStored)%nat }.
Lemma inv_start : inv start. Proof. constructor; cbn; [constructor | constructor | reflexivity | unfold maxStored; lia]. Qed.
Lemma inv_log : forall m s, inv s -> inv (logMessage m s).
Proof.
  intros m s [A B C D]. unfold logMessage. destruct (s_dead s); [constructor; assumption |]. constructor; cbn [s_handlers s_stored s_next]; auto.
  - intros H. specialize (C H). rewrite C. destruct (s_handlers s); [congruence | reflexivity].
  - destruct (nobody (s_handlers s) && (length (s_stored s) <? maxStored)%nat) eqn:E; [| exact D]. apply andb_true_iff in E. destruct E as (_ & E). apply Nat.ltb_lt in E. rewrite app_length. cbn [length]. lia.
Qed.
Lemma inv_logs : forall ms s, inv s -> inv (fold_left (fun s m => logMessage m s) ms s).
Proof. induction ms as [|m ms IH]; intros s I; [exact I |]. cbn [fold_left]. apply IH, inv_log, I. Qed.
Lemma inv_warns : forall ms s, inv s -> inv (fold_left (fun s m => logMessage (warn m) s) ms s).
Proof. induction ms as [|m ms IH]; intros s I; [exact I |]. cbn [fold_left]. apply IH, inv_log, I. Qed.
Lemma inv_add : forall s, inv s -> inv (addLogHandler addr s).
Proof.
  intros s [A B C D]. unfold addLogHandler. destruct (s_dead s); [constructor; assumption |]. constructor; cbn [s_handlers s_stored s_next].
  - apply (Permutation_NoDup (Permutation_sym (insert_perm (s_next s) (s_handlers s)))). constructor; [| exact A]. intros H. rewrite Forall_forall in B. specialize (B _ H). lia.
  - apply (Permutation_Forall (Permutation_sym (insert_perm (s_next s) (s_handlers s)))). constructor; [lia |]. revert B. apply Forall_impl. intros; lia.
  - reflexivity.
  - cbn. unfold maxStored. lia.
Qed.
Lemma logs_same : forall ms s, s_handlers (fold_left (fun s m => logMessage m s) ms s) = s_handlers s /\ s_next (fold_left (fun s m => logMessage m s) ms s) = s_next s /\ s_freed (fold_left (fun s m => logMessage m s) ms s) = s_freed s.
Proof. induction ms as [|m ms IH]; intros s; [auto |]. cbn [fold_left]. destruct (IH (logMessage m s)) as (-> & -> & ->). unfold logMessage. destruct (s_dead s); auto. Qed.
Lemma warns_as_logs : forall ws s, fold_left (fun s w => logMessage (warn w) s) ws s = fold_left (fun s m => logMessage m s) (map warn ws) s.
Proof. induction ws as [|w ws IH]; intros s; [reflexivity |]. cbn [map fold_left]. apply IH. Qed.
Lemma inv_remove : forall h s, inv s -> inv (removeLogHandler hasFree freeLogs h s).
Proof.
  intros h s I. unfold removeLogHandler. destruct (s_dead s) eqn:Ed; [exact I |]. destruct (mem h (s_handlers s)); [| exact I].
  match goal with |- context [if hasFree h then fold_left _ _ ?a else ?a] => set (s1 := a) end. assert (I1 : inv s1) by (destruct I as [A B C D]; constructor; assumption). clearbody s1.
  set (s2 := if hasFree h then fold_left _ (freeLogs h) s1 else s1). assert (I2 : inv s2) by (unfold s2; destruct (hasFree h); [apply inv_logs |]; exact I1). clearbody s2. clear I1 I.
  destruct I2 as [A B C D]. constructor; cbn [s_handlers s_stored s_next]; auto.
  - apply NoDup_filter. exact A.
  - apply Forall_forall. intros x H. apply filter_In in H. rewrite Forall_forall in B. apply B, H.
  - intros H. apply C. intros E. apply H. rewrite E. reflexivity.
Qed.
Lemma inv_removes : forall hs s, inv s -> inv (fold_left (fun s h => removeLogHandler hasFree freeLogs h s) hs s).
Proof. induction hs as [|h hs IH]; intros s I; [exact I |]. cbn [fold_left]. apply IH, inv_remove, I. Qed.
Lemma inv_step : forall s o, inv s -> inv (step addr hasFree freeLogs s o).
Proof.
  intros s [m | | h | ws] I; cbn [step]; [apply inv_log | apply inv_add | apply inv_remove |]; auto.
  unfold freeCore. destruct (s_dead s); [exact I |]. destruct (s_freed s); [apply inv_log, I |]. cbv zeta. apply inv_removes, inv_warns. destruct I as [A B C D]. constructor; assumption.
Qed.
Lemma inv_run : forall ops s, inv s -> inv (fold_left (step addr hasFree freeLogs) ops s).
Proof. induction ops as [|o ops IH]; intros s I; [exact I |]. cbn [fold_left]. apply IH, inv_step, I. Qed.

(** ** Free callbacks run once, when the handler goes. *)
Definition dues (s : st) (i : nat) : nat := if hasFree i && (i <? s_next s)%nat && negb (mem i (s_handlers s)) then 1 else 0.
Definition paid (s : st) : Prop := s_dead s = false -> forall i, freedTimes i (s_trace s) = dues s i.
Lemma paid_log : forall m s, paid s -> paid (logMessage m s).
Proof.
  intros m s P. unfold logMessage. destruct (s_dead s) eqn:Ed; [exact P |]. intros _ i. cbn [s_trace]. rewrite freed_app, freed_told, Nat.add_0_r. exact (P Ed i).
Qed.
Lemma logs_freed : forall ms i s, freedTimes i (s_trace (fold_left (fun s m => logMessage m s) ms s)) = freedTimes i (s_trace s).
Proof.
  induction ms as [|m ms IH]; intros i s; [reflexivity |]. cbn [fold_left]. rewrite IH. unfold logMessage. destruct (s_dead s); [reflexivity |]. cbn [s_trace]. rewrite freed_app, freed_told. lia.
Qed.
Lemma logs_dead : forall ms s, s_dead s = true -> fold_left (fun s m => logMessage m s) ms s = s.
Proof. induction ms as [|m ms IH]; intros s D; [reflexivity |]. cbn [fold_left]. assert (E : logMessage m s = s) by (unfold logMessage; rewrite D; reflexivity). rewrite E. apply IH, D. Qed.
Lemma logs_alive : forall ms s, s_dead (fold_left (fun s m => logMessage m s) ms s) = false -> s_dead s = false.
Proof. intros ms s H. destruct (s_dead s) eqn:D; [| reflexivity]. rewrite logs_dead in H by exact D. congruence. Qed.
Lemma paid_logs : forall ms s, paid s -> paid (fold_left (fun s m => logMessage m s) ms s).
Proof. induction ms as [|m ms IH]; intros s P; [exact P |]. cbn [fold_left]. apply IH, paid_log, P. Qed.
Lemma paid_add : forall s, inv s -> paid s -> paid (addLogHandler addr s).
Proof.
  intros s I P. unfold addLogHandler. destruct (s_dead s) eqn:Ed; [exact P |]. intros _ i. cbn [s_trace]. rewrite !freed_app, freed_own. rewrite (P Ed i).
  replace (freedTimes i (if Nat.eqb (length (s_stored s)) maxStored then [Told (s_next s) discarded] else [])) with 0%nat by (destruct (Nat.eqb _ _); reflexivity). rewrite !Nat.add_0_r.
  unfold dues. cbn [s_handlers s_next]. rewrite (mem_perm i _ _ (insert_perm (s_next s) (s_handlers s))). cbn [mem existsb]. fold (mem i (s_handlers s)).
  destruct (Nat.eqb_spec i (s_next s)) as [-> | N].
  - rewrite Nat.ltb_irrefl, andb_false_r. cbn [andb orb negb]. rewrite andb_false_r. reflexivity.
  - cbn [orb]. replace (i <? S (s_next s))%nat with (i <? s_next s)%nat; [reflexivity |]. destruct (Nat.ltb_spec i (s_next s)), (Nat.ltb_spec i (S (s_next s))); reflexivity || lia.
Qed.
Lemma mem_filter : forall i h l, mem i (filter (fun x => negb (Nat.eqb x h)) l) = mem i l && negb (Nat.eqb i h).
Proof.
  intros i h l. destruct (mem i l && negb (Nat.eqb i h)) eqn:E.
  - apply andb_true_iff in E. destruct E as (A & B). apply mem_In. apply filter_In. split; [apply mem_In, A | exact B].
  - apply mem_false. intros H. apply filter_In in H. destruct H as (A & B). apply mem_In in A. rewrite A, B in E. discriminate.
Qed.
Lemma paid_remove : forall h s, inv s -> paid s -> paid (removeLogHandler hasFree freeLogs h s).
Proof.
  intros h s I P. unfold removeLogHandler. destruct (s_dead s) eqn:Ed; [exact P |]. destruct (mem h (s_handlers s)) eqn:Em; [| exact P].
  match goal with |- context [if hasFree h then fold_left _ _ ?a else ?a] => set (s1 := a) end.
  intros D i. cbn [s_trace s_dead] in *. set (s2 := if hasFree h then fold_left _ (freeLogs h) s1 else s1) in *.
  assert (Q : s_handlers s2 = s_handlers s /\ s_next s2 = s_next s /\ freedTimes i (s_trace s2) = freedTimes i (s_trace s1)).
  { unfold s2. destruct (hasFree h); [| auto]. destruct (logs_same (freeLogs h) s1) as (A & B & _). rewrite A, B, logs_freed. auto. }
  destruct Q as (Qh & Qn & Qf). unfold dues. cbn [s_handlers s_next]. rewrite Qf, Qh, Qn. unfold s1. cbn [s_trace]. rewrite freed_app, (P Ed i). unfold dues. rewrite mem_filter.
  apply mem_In in Em. destruct I as [_ B _ _]. rewrite Forall_forall in B. specialize (B _ Em). apply mem_In in Em.
  destruct (Nat.eqb_spec i h) as [-> | N].
  - rewrite Em. cbn [andb negb]. replace (h <? s_next s)%nat with true by (symmetry; apply Nat.ltb_lt; exact B). rewrite !andb_true_r, andb_false_r. destruct (hasFree h); [| reflexivity]. unfold freedTimes. cbn [filter]. rewrite Nat.eqb_refl. reflexivity.
  - cbn [negb]. rewrite andb_true_r. replace (freedTimes i (if hasFree h then [Freed h] else [])) with 0%nat; [lia |]. destruct (hasFree h); [| reflexivity]. unfold freedTimes. cbn [filter]. destruct (Nat.eqb_spec i h); [contradiction | reflexivity].
Qed.
Lemma paid_removes : forall hs s, inv s -> paid s -> paid (fold_left (fun s h => removeLogHandler hasFree freeLogs h s) hs s).
Proof. induction hs as [|h hs IH]; intros s I P; [exact P |]. cbn [fold_left]. apply IH; [apply inv_remove, I | apply paid_remove; assumption]. Qed.
Lemma paid_step : forall s o, inv s -> paid s -> paid (step addr hasFree freeLogs s o).
Proof.
  intros s [m | | h | ws] I P; cbn [step]; [apply paid_log | apply paid_add | apply paid_remove |]; auto.
  unfold freeCore. destruct (s_dead s) eqn:Ed; [exact P |]. destruct (s_freed s); [apply paid_log, P |]. cbv zeta. rewrite warns_as_logs. apply paid_removes.
  - apply inv_logs. destruct I as [A B C D]. constructor; assumption.
  - apply paid_logs. intros _ i. apply P. exact Ed.
Qed.
Lemma paid_run : forall ops s, inv s -> paid s -> paid (fold_left (step addr hasFree freeLogs) ops s).
Proof. induction ops as [|o ops IH]; intros s I P; [exact P |]. cbn [fold_left]. apply IH; [apply inv_step, I | apply paid_step; assumption]. Qed.
(** The whole run: a handler that was added and is no longer there was freed once, the others not. *)
Lemma freed_once : forall ops i, let s := run addr hasFree freeLogs ops in s_dead s = false ->
  freedTimes i (s_trace s) = if hasFree i && (i <? s_next s)%nat && negb (mem i (s_handlers s)) then 1%nat else 0%nat.
Proof.
  intros ops i s D. apply (paid_run ops start inv_start); [| exact D]. intros _ j. unfold dues. cbn [s_trace start s_next s_handlers]. rewrite andb_false_r. reflexivity.
Qed.
End Facts.

(** ** What is heard, when free callbacks do not log. *)
Section Heard.
Variable addr : nat -> Z.
Variable hasFree : nat -> bool.
Notation rm := (removeLogHandler hasFree (fun _ => [])).
Notation stp := (step addr hasFree (fun _ => [])).
Lemma push : forall k (p : list msg) m, (if (length (firstn k p) <? k)%nat then firstn k p ++ [m] else firstn k p) = firstn k (p ++ [m]).
Proof.
  intros k p m. rewrite firstn_length. destruct (Nat.ltb_spec (Nat.min k (length p)) k) as [H | H].
  - rewrite (firstn_all2 (n := k)) by lia. rewrite firstn_all2; [reflexivity |]. rewrite app_length. cbn [length]. lia.
  - rewrite firstn_app. replace (k - length p)%nat with 0%nat by lia. cbn [firstn]. rewrite app_nil_r. reflexivity.
Qed.
Record rel (s : st) (next : nat) (live : list nat) (pending : list msg) (gone : bool) : Prop :=
  { r_dead : s_dead s = false; r_next : s_next s = next; r_live : Permutation (s_handlers s) live; r_stored : s_stored s = firstn retained pending; r_gone : s_freed s = gone; r_inv : inv s }.
Lemma rel_log : forall i m s next live pending gone, rel s next live pending gone ->
  toldTo i (s_trace (logMessage m s)) = toldTo i (s_trace s) ++ when (mem i live) [m] /\ (fatal m = false -> rel (logMessage m s) next live (pending ++ when (nobody live) [m]) gone) /\ (fatal m = true -> s_dead (logMessage m s) = true).
Proof.
  intros i m s next live pending gone [D N L S G I]. assert (I' := inv_log m s I). unfold logMessage in *. rewrite D in *. split; [| split].
  - cbn [s_trace]. rewrite toldTo_app, told_each by apply I. rewrite (mem_perm i _ _ L). reflexivity.
  - intros F. constructor; cbn [s_dead s_next s_handlers s_stored s_freed]; auto. rewrite (nobody_perm _ _ L), S. destruct (nobody live); cbn [andb when]; [| rewrite app_nil_r; reflexivity]. exact (push retained pending m).
  - intros F. exact F.
Qed.
Lemma rel_logs : forall i ms s next live pending gone, Forall (fun m => fatal m = false) ms -> rel s next live pending gone ->
  let s' := fold_left (fun s m => logMessage m s) ms s in toldTo i (s_trace s') = toldTo i (s_trace s) ++ when (mem i live) ms /\ rel s' next live (pending ++ when (nobody live) ms) gone.
Proof.
  intros i ms. induction ms as [|m ms IH]; intros s next live pending gone F R.
  - cbn [fold_left]. destruct (mem i live), (nobody live); cbn [when]; rewrite !app_nil_r; auto.
  - inversion F as [|? ? Fm Fms]; subst. cbn [fold_left]. destruct (rel_log i m s next live pending gone R) as (A & B & _). destruct (IH (logMessage m s) next live _ gone Fms (B Fm)) as (C & E). split.
    + rewrite C, A, <- app_assoc. f_equal. destruct (mem i live); reflexivity.
    + destruct (nobody live); cbn [when] in *; [| rewrite !app_nil_r in *; exact E]. rewrite <- app_assoc in E. exact E.
Qed.
Lemma rel_remove : forall i h s next live pending gone, rel s next live pending gone ->
  toldTo i (s_trace (rm h s)) = toldTo i (s_trace s) /\ rel (rm h s) next (filter (fun x => negb (Nat.eqb x h)) live) pending gone.
Proof.
  intros i h s next live pending gone [D N L S G I]. assert (I' := inv_remove hasFree (fun _ => []) h s I). unfold removeLogHandler in *. rewrite D in *. destruct (mem h (s_handlers s)) eqn:E.
  - cbn [fold_left] in *. split.
    + destruct (hasFree h); cbn [s_trace]; rewrite toldTo_app; apply app_nil_r.
    + constructor; auto; destruct (hasFree h); cbn [s_dead s_next s_handlers s_stored s_freed]; auto; apply filter_perm, L.
  - split; [reflexivity |]. constructor; auto. replace (filter (fun x => negb (Nat.eqb x h)) live) with live; [exact L |]. symmetry. rewrite (mem_perm h _ _ L) in E. clear - E.
    apply mem_false in E. induction live as [|a live IH]; [reflexivity |]. cbn [filter]. destruct (Nat.eqb_spec a h); [exfalso; apply E; left; exact e |]. cbn [negb]. f_equal. apply IH. intros X. apply E. right. exact X.
Qed.
Lemma rel_removes : forall i hs s next live pending gone, rel s next live pending gone -> let s' := fold_left (fun s h => rm h s) hs s in
  toldTo i (s_trace s') = toldTo i (s_trace s) /\ rel s' next (filter (fun x => negb (mem x hs)) live) pending gone.
Proof.
  intros i hs. induction hs as [|h hs IH]; intros s next live pending gone R.
  - cbn [fold_left mem existsb negb]. split; [reflexivity |]. replace (filter (fun _ : nat => true) live) with live; [exact R |]. clear. induction live as [|a l IHl]; [reflexivity |]. cbn [filter]. f_equal. exact IHl.
  - cbn [fold_left]. destruct (rel_remove i h s next live pending gone R) as (A & B). destruct (IH _ _ _ _ _ B) as (C & E). split; [rewrite C; exact A |].
    replace (filter (fun x => negb (mem x (h :: hs))) live) with (filter (fun x => negb (mem x hs)) (filter (fun x => negb (Nat.eqb x h)) live)); [exact E |].
    clear. induction live as [|a l IHl]; [reflexivity |]. cbn [filter mem existsb]. fold (mem a hs). destruct (Nat.eqb a h); cbn [negb orb]; [exact IHl |]. cbn [filter]. destruct (mem a hs); cbn [negb]; [exact IHl | f_equal; exact IHl].
Qed.
Lemma filter_none : forall (a b : list nat), Permutation a b -> filter (fun x => negb (mem x a)) b = [].
Proof.
  intros a b P. destruct (filter (fun x => negb (mem x a)) b) as [|x r] eqn:E; [reflexivity |]. exfalso. assert (H : In x (filter (fun x => negb (mem x a)) b)) by (rewrite E; left; reflexivity).
  apply filter_In in H. destruct H as (H1 & H2). assert (M : mem x a = true) by (apply mem_In; exact (Permutation_in _ (Permutation_sym P) H1)). rewrite M in H2. discriminate.
Qed.
Lemma dead_stays : forall ops s, s_dead s = true -> fold_left stp ops s = s.
Proof.
  induction ops as [|o ops IH]; intros s D; [reflexivity |]. cbn [fold_left]. assert (E : stp s o = s) by (destruct o; cbn [step]; unfold logMessage, addLogHandler, removeLogHandler, freeCore; rewrite D; reflexivity). rewrite E. apply IH, D.
Qed.
Lemma run_heard : forall i ops s next live pending gone, rel s next live pending gone -> toldTo i (s_trace (fold_left stp ops s)) = toldTo i (s_trace s) ++ heard i ops next live pending gone.
Proof.
  intros i ops. induction ops as [|o ops IH]; intros s next live pending gone R; [symmetry; apply app_nil_r |]. cbn [fold_left]. destruct o as [m | | h | ws]; cbn [step heard].
  - destruct (rel_log i m s next live pending gone R) as (A & B & C). destruct (fatal m) eqn:F.
    + rewrite dead_stays by (apply C; reflexivity). rewrite A, app_nil_r. reflexivity.
    + rewrite (IH _ _ _ _ _ (B eq_refl)), A, app_assoc. reflexivity.
  - destruct R as [D N L S G I]. assert (I' := inv_add addr s I). set (s' := addLogHandler addr s) in *.
    assert (R' : rel s' (Datatypes.S next) (next :: live) [] gone).
    { unfold s', addLogHandler in *. rewrite D in *. constructor; cbn [s_dead s_next s_handlers s_stored s_freed]; auto. rewrite <- N. eapply perm_trans; [apply insert_perm | apply perm_skip, L]. }
    rewrite (IH _ _ _ _ _ R'), app_assoc. f_equal. unfold s', addLogHandler. rewrite D. cbn [s_trace]. rewrite !toldTo_app. f_equal. rewrite told_own, N, S. rewrite firstn_length.
    replace (toldTo i (if Nat.eqb (Nat.min retained (length pending)) maxStored then [Told next discarded] else [])) with (when (Nat.eqb i next) (when (retained <=? length pending)%nat [discarded])).
    + destruct (Nat.eqb i next); reflexivity.
    + replace (Nat.eqb (Nat.min retained (length pending)) maxStored) with (retained <=? length pending)%nat.
      * destruct (retained <=? length pending)%nat; cbn [when toldTo flat_map]; [rewrite app_nil_r |]; destruct (Nat.eqb i next); reflexivity.
      * change maxStored with retained. destruct (Nat.leb_spec retained (length pending)), (Nat.eqb_spec (Nat.min retained (length pending)) retained); reflexivity || lia.
  - destruct (rel_remove i h s next live pending gone R) as (A & B). rewrite (IH _ _ _ _ _ B), A. reflexivity.
  - destruct (s_freed s) eqn:Fr.
    + unfold freeCore. rewrite (r_dead _ _ _ _ _ R), Fr. destruct (rel_log i doubleFree s next live pending gone R) as (A & _ & C). rewrite dead_stays by (apply C; reflexivity). rewrite A. rewrite (r_gone _ _ _ _ _ R) in Fr. rewrite Fr. reflexivity.
    + assert (G : gone = false) by (rewrite <- (r_gone _ _ _ _ _ R); exact Fr). subst gone.
      unfold freeCore. rewrite (r_dead _ _ _ _ _ R), Fr. cbv zeta. set (s1 := mkS _ _ _ _ _ _).
      assert (R1 : rel s1 next live pending true) by (destruct R as [D N L S G' I]; constructor; auto; destruct I; constructor; assumption).
      rewrite warns_as_logs. destruct (rel_logs i (map warn ws) s1 next live pending true) as (A & B); [apply Forall_map, Forall_forall; reflexivity | exact R1 |]. set (s2 := fold_left _ (map warn ws) s1) in *.
      destruct (rel_removes i (s_handlers s2) s2 _ _ _ _ B) as (C & E). rewrite (filter_none (s_handlers s2) live (r_live _ _ _ _ _ B)) in E. rewrite (IH _ _ _ _ _ E), C, A, app_assoc. reflexivity.
Qed.
Lemma all_heard : forall ops i, toldTo i (s_trace (run addr hasFree (fun _ => []) ops)) = heard i ops 0 [] [] false.
Proof. intros ops i. unfold run. rewrite (run_heard i ops start 0 [] [] false); [reflexivity |]. constructor; try reflexivity. apply inv_start. Qed.

(** ** Nothing after the free callback. *)
Fixpoint quiet (l : list event) : Prop := match l with [] => True | Freed i :: r => toldTo i r = [] /\ quiet r | Told _ _ :: r => quiet r end.
Lemma quiet_app : forall a b, quiet a -> quiet b -> (forall i, In (Freed i) a -> toldTo i b = []) -> quiet (a ++ b).
Proof.
  induction a as [|e a IH]; intros b Qa Qb H; [exact Qb |]. cbn [app quiet] in *. destruct e as [h m | h].
  - apply IH; auto. intros i Hi. apply H. right. exact Hi.
  - destruct Qa as (A & B). split; [rewrite toldTo_app, A; apply H; left; reflexivity |]. apply IH; auto. intros i Hi. apply H. right. exact Hi.
Qed.
Lemma quiet_spec : forall l i a b, quiet l -> l = a ++ Freed i :: b -> toldTo i b = [].
Proof. induction l as [|e l IH]; intros i [|x a] b Q E; try discriminate E; injection E as -> E; [cbn [quiet] in Q; subst; apply Q |]. apply (IH i a b); [destruct x; apply Q | exact E]. Qed.
Lemma quiet_told : forall m l, quiet (map (fun h => Told h m) l). Proof. intros m l. induction l; cbn; auto. Qed.
Lemma quiet_own : forall h l, quiet (map (Told h) l). Proof. intros m l. induction l; cbn; auto. Qed.
Record hush (s : st) : Prop := { h_quiet : quiet (s_trace s); h_gone : forall i, In (Freed i) (s_trace s) -> ~ In i (s_handlers s) /\ (i < s_next s)%nat }.
Lemma not_freed_told : forall i m l, ~ In (Freed i) (map (fun h => Told h m) l).
Proof. intros i m l H. apply in_map_iff in H. destruct H as (x & E & _). discriminate. Qed.
Lemma hush_log : forall m s, inv s -> hush s -> hush (logMessage m s).
Proof.
  intros m s I [Q G]. unfold logMessage. destruct (s_dead s); [constructor; assumption |]. constructor; cbn [s_trace s_handlers s_next].
  - apply quiet_app; [exact Q | apply quiet_told |]. intros i Hi. rewrite told_each by apply I. destruct (G i Hi) as (N & _). apply mem_false in N. rewrite N. reflexivity.
  - intros i H. apply in_app_or in H. destruct H as [H | H]; [apply G, H | exfalso; exact (not_freed_told i m _ H)].
Qed.
Lemma hush_step : forall s o, inv s -> hush s -> hush (stp s o).
Proof.
  assert (RM : forall h s, inv s -> hush s -> hush (rm h s)).
  { intros h s I [Q G]. unfold removeLogHandler. destruct (s_dead s) eqn:Ed; [constructor; assumption |]. destruct (mem h (s_handlers s)) eqn:E; [| constructor; assumption].
    assert (H1 : s_trace (rm h s) = s_trace s ++ (if hasFree h then [Freed h] else [])) by (unfold removeLogHandler; rewrite Ed, E; destruct (hasFree h); reflexivity).
    assert (H2 : s_handlers (rm h s) = filter (fun x => negb (Nat.eqb x h)) (s_handlers s)) by (unfold removeLogHandler; rewrite Ed, E; destruct (hasFree h); reflexivity).
    assert (H3 : s_next (rm h s) = s_next s) by (unfold removeLogHandler; rewrite Ed, E; destruct (hasFree h); reflexivity).
    assert (X : hush (rm h s)).
    { constructor.
      - rewrite H1. apply quiet_app; [exact Q | destruct (hasFree h); cbn; auto |]. intros i _. destruct (hasFree h); reflexivity.
      - intros i Hi. rewrite H1 in Hi. rewrite H2, H3. apply in_app_or in Hi. destruct Hi as [Hi | Hi].
        + destruct (G i Hi) as (A & B). split; [intros X; apply filter_In in X; apply A, X | exact B].
        + destruct (hasFree h); [| destruct Hi]. destruct Hi as [Hi | Hi]; [| destruct Hi]. injection Hi as <-. split.
          * intros X. apply filter_In in X. destruct X as (_ & X). rewrite Nat.eqb_refl in X. discriminate.
          * destruct I as [_ B _ _]. rewrite Forall_forall in B. apply B. apply mem_In, E. }
    unfold removeLogHandler in X. rewrite Ed, E in X. exact X. }
  assert (RMS : forall hs s, inv s -> hush s -> hush (fold_left (fun s h => rm h s) hs s)).
  { induction hs as [|h hs IH]; intros s I H; [exact H |]. cbn [fold_left]. apply IH; [apply inv_remove, I | apply RM; assumption]. }
  assert (LS : forall ws s, inv s -> hush s -> hush (fold_left (fun s w => logMessage (warn w) s) ws s)).
  { induction ws as [|w ws IH]; intros s I H; [exact H |]. cbn [fold_left]. apply IH; [apply inv_log, I | apply hush_log; assumption]. }
  intros s [m | | h | ws] I H; cbn [step]; [apply hush_log; assumption | | apply RM; assumption |].
  - destruct H as [Q G]. unfold addLogHandler. destruct (s_dead s); [constructor; assumption |]. constructor; cbn [s_trace s_handlers s_next].
    + apply quiet_app; [exact Q | apply quiet_app; [apply quiet_own | destruct (Nat.eqb _ _); cbn; auto |] |].
      * intros i Hi. apply in_map_iff in Hi. destruct Hi as (x & E & _). discriminate.
      * intros i Hi. destruct (G i Hi) as (_ & L). rewrite toldTo_app, told_own. destruct (Nat.eqb_spec i (s_next s)); [lia |]. cbn [when app]. destruct (Nat.eqb (length (s_stored s)) maxStored); [| reflexivity]. cbn [toldTo flat_map]. destruct (Nat.eqb_spec i (s_next s)); [lia | reflexivity].
    + intros i Hi. apply in_app_or in Hi. destruct Hi as [Hi | Hi].
      * destruct (G i Hi) as (A & B). split; [| lia]. intros X. apply (Permutation_in _ (insert_perm addr (s_next s) (s_handlers s))) in X. destruct X as [X | X]; [lia | contradiction].
      * exfalso. apply in_app_or in Hi. destruct Hi as [Hi | Hi]; [apply in_map_iff in Hi; destruct Hi as (x & E & _); discriminate |]. destruct (Nat.eqb _ _); [| destruct Hi]. destruct Hi as [Hi | Hi]; [discriminate | destruct Hi].
  - unfold freeCore. destruct (s_dead s); [exact H |]. destruct (s_freed s); [apply hush_log; assumption |]. cbv zeta. apply RMS; [apply inv_warns | apply LS]; destruct I, H; constructor; assumption.
Qed.
Lemma hush_run : forall ops s, inv s -> hush s -> hush (fold_left stp ops s).
Proof. induction ops as [|o ops IH]; intros s I H; [exact H |]. cbn [fold_left]. apply IH; [apply inv_step, I | apply hush_step; assumption]. Qed.
Lemma nothing_after : forall ops i a b, s_trace (run addr hasFree (fun _ => []) ops) = a ++ Freed i :: b -> toldTo i b = [].
Proof. intros ops i a b E. apply (quiet_spec _ i a b) with (2 := E). apply hush_run; [apply inv_start |]. constructor; [exact I | intros j []]. Qed.
End Heard.
Lemma told_while_freed : exists addr hasFree freeLogs ops i a b m, s_trace (run addr hasFree freeLogs ops) = a ++ Freed i :: b /\ toldTo i b = [m].
Proof. exists (fun _ => 0), (fun _ => true), (fun _ => [(1, T "bye")]), [Add; Remove 0], 0%nat, [], [Told 0 (1, T "bye")], (1, T "bye"). split; vm_compute; reflexivity. Qed.

(** ** The log of API 3 *)
Section Legacy.
Variable hasFree3 : nat -> bool.
Record rel3 (s : st3) (next : nat) (live : list nat) (global : option nat) : Prop :=
  { l_live : map fst (g_handlers s) = live; l_next : g_next s = next; l_global : g_global s = global; l_nodup : NoDup live; l_below : Forall (fun h => (h < next)%nat) live }.
Lemma drop_nodup : forall h l, NoDup l -> NoDup (drop h l). Proof. intros. apply NoDup_filter. assumption. Qed.
Lemma drop_below : forall h n l, Forall (fun h => (h < n)%nat) l -> Forall (fun h => (h < n)%nat) (drop h l).
Proof. intros h n l F. apply Forall_forall. intros x H. apply filter_In in H. rewrite Forall_forall in F. apply F, H. Qed.
Lemma drop_absent : forall h l, ~ In h l -> drop h l = l.
Proof. intros h l. induction l as [|a l IH]; intros H; [reflexivity |]. unfold drop in *. cbn [filter]. destruct (Nat.eqb_spec a h); [exfalso; apply H; left; assumption |]. cbn [negb]. f_equal. apply IH. intros X. apply H. right. exact X. Qed.
Lemma map_drop : forall h (l : list (nat * bool)), map fst (filter (fun e => negb (Nat.eqb (fst e) h)) l) = drop h (map fst l).
Proof. intros h l. unfold drop. induction l as [|a l IH]; [reflexivity |]. cbn [map filter]. destruct (negb (Nat.eqb (fst a) h)); cbn [map]; [f_equal |]; exact IH. Qed.
Lemma rel3_remove : forall i h s next live global, rel3 s next live global -> toldTo i (g_trace (remove3 h s)) = toldTo i (g_trace s) /\ rel3 (remove3 h s) next (drop h live) global.
Proof.
  intros i h s next live global [L N G D B]. unfold remove3. destruct (find (fun e => Nat.eqb h (fst e)) (g_handlers s)) as [(x, f)|] eqn:E.
  - split; [cbn [g_trace]; rewrite toldTo_app; destruct f; apply app_nil_r |]. constructor; cbn [g_handlers g_next g_global]; auto; [rewrite map_drop, L; reflexivity | apply drop_nodup, D | apply drop_below, B].
  - split; [reflexivity |]. rewrite drop_absent; [constructor; assumption |]. intros H. rewrite <- L in H. apply in_map_iff in H. destruct H as (e & Ee & He). pose proof (find_none _ _ E _ He) as X. cbv beta in X. rewrite Ee, Nat.eqb_refl in X. discriminate.
Qed.
Lemma rel3_add : forall f s next live global, rel3 s next live global -> rel3 (add3 f s) (S next) (live ++ [next]) global /\ g_trace (add3 f s) = g_trace s.
Proof.
  intros f s next live global [L N G D B]. split; [| reflexivity]. constructor; cbn [g_handlers g_next g_global add3]; auto.
  - rewrite map_app, L, N. reflexivity.
  - apply (Permutation_NoDup (Permutation_cons_append live next)). constructor; [| exact D]. intros H. rewrite Forall_forall in B. specialize (B _ H). lia.
  - apply Forall_app. split; [revert B; apply Forall_impl; intros; lia | constructor; [lia | constructor]].
Qed.
Lemma run3_heard : forall i ops s next live global, rel3 s next live global -> toldTo i (g_trace (fold_left (step3 hasFree3) ops s)) = toldTo i (g_trace s) ++ heard3 i ops next live global.
Proof.
  intros i ops. induction ops as [|o ops IH]; intros s next live global R; [symmetry; apply app_nil_r |]. cbn [fold_left]. destruct o as [m | h | | h]; cbn [step3 heard3].
  - assert (R' : rel3 (log3 m s) next live global) by (destruct R; constructor; assumption). rewrite (IH _ _ _ _ R'), app_assoc. f_equal. unfold log3. cbn [g_trace]. rewrite toldTo_app. f_equal.
    destruct R as [L _ _ D _]. rewrite <- (map_map fst (fun h => Told h m)), L. apply told_each, D.
  - set (s1 := match g_global s with Some id => mkG (g_handlers (remove3 id s)) (g_trace (remove3 id s)) (g_next (remove3 id s)) None | None => s end).
    assert (R1 : rel3 s1 next (dropped global live) None /\ toldTo i (g_trace s1) = toldTo i (g_trace s)).
    { pose proof (l_global _ _ _ _ R) as Hg. unfold s1. rewrite Hg. destruct global as [id|]; [| split; [exact R | reflexivity]]. destruct (rel3_remove i id s next live (Some id) R) as (A & B). split; [| exact A]. destruct B; constructor; auto. }
    destruct R1 as (R1 & T1). change (set3 h s) with (if h then let s := add3 false s1 in mkG (g_handlers s) (g_trace s) (g_next s) (Some (g_next s1)) else s1). destruct h.
    + destruct (rel3_add false s1 _ _ _ R1) as (R2 & T2). cbv zeta. rewrite (l_next _ _ _ _ R1).
      assert (R3 : rel3 (mkG (g_handlers (add3 false s1)) (g_trace (add3 false s1)) (g_next (add3 false s1)) (Some next)) (S next) (dropped global live ++ [next]) (Some next)) by (destruct R2; constructor; auto).
      rewrite (IH _ _ _ _ R3). cbn [g_trace]. rewrite T2, T1. reflexivity.
    + rewrite (IH _ _ _ _ R1), T1. reflexivity.
  - destruct (rel3_add (hasFree3 (g_next s)) s _ _ _ R) as (R2 & T2). rewrite (IH _ _ _ _ R2), T2. reflexivity.
  - destruct (rel3_remove i h s _ _ _ R) as (A & B). rewrite (IH _ _ _ _ B), A. reflexivity.
Qed.
Lemma all_heard3 : forall ops i, toldTo i (g_trace (run3 hasFree3 ops)) = heard3 i ops 0 [] None.
Proof. intros ops i. unfold run3. rewrite (run3_heard i ops start3 0 [] None); [reflexivity |]. constructor; try reflexivity; constructor. Qed.
End Legacy.
