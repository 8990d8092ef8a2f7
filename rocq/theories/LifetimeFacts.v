(** The life of filter instances: what follows from the invariants. *)
From Coq Require Import ZArith List Bool Lia Arith.
From Verif Require Import Common Lifetime LifetimeLemmas.
Import ListNotations.
Open Scope list_scope.
Open Scope Z_scope.

Definition reached (cores threads : nat) (l : list move) (s : state) : Prop := run true (start cores threads) l = Ok s.
Lemma reached_good : forall k h l s, reached k h l s -> good s.
Proof. intros k h l s R. destruct (run_good l _ (start_good k h)) as (s' & E & G). unfold reached in R. rewrite E in R. injection R as <-. exact G. Qed.
Lemma never_ub : forall k h l, exists s, reached k h l s.
Proof. intros k h l. destruct (run_good l _ (start_good k h)) as (s' & E & _). exists s'. exact E. Qed.

(** ** Once *)
Lemma freed_once : forall k h l s n x, reached k h l s -> nth_error (s_nodes s) n = Some x ->
  occE (isFree n) (s_log s) = isZ (n_free x && n_fin x) /\ forall c, In (EFree n c) (s_log s) -> c = n_core x.
Proof.
  intros k h l s n x R X. pose proof (reached_good _ _ _ _ R) as G. split; [exact (g_log s G n x X)|]. intros c I. apply (g_logCore s G) in I. rewrite (core_is _ _ x) in I by exact X. apply Nat.eqb_eq in I. congruence.
Qed.

(** ** Users first *)
Lemma total_zero_inv : forall A (f : A -> Z) l x, (forall x, In x l -> 0 <= f x) -> total f l <= 0 -> In x l -> f x = 0.
Proof. intros A f l x H Z I. pose proof (total_ge _ f l x H I). pose proof (H x I). lia. Qed.
Lemma dead_unused : forall s n x m y, good s -> nth_error (s_nodes s) n = Some x -> n_live x = false -> nth_error (s_nodes s) m = Some y -> (In n (n_deps y) -> n_live y = false) /\ (In n (n_inst y) -> n_fin y = true).
Proof.
  intros s n x m y G X LV Y. destruct (g_nodes s G n x X) as (N1 & N2 & N3 & N4 & N5 & _). rewrite LV in N5. symmetry in N5. apply Z.ltb_ge in N5.
  assert (T0 : 0 <= total (fun th => occA (isRel n) (t_stack th)) (s_threads s)) by (apply total_nonneg; intros; apply occA_nonneg). unfold refsOf in N1.
  assert (H : holds n y = 0) by (apply (total_zero_inv _ (holds n) (s_nodes s)); [intros; apply holds_nonneg|lia|apply nth_error_In in Y; exact Y]). unfold holds in H.
  pose proof (occ_nonneg n (n_deps y)). pose proof (occ_nonneg n (n_inst y)). split; intros I; apply occ_pos in I; [destruct (n_live y)|destruct (n_fin y)]; try reflexivity; [destruct (n_fin y)|destruct (n_live y)]; lia.
Qed.
Lemma users_first : forall k h l s th n c r, reached k h l s -> In th (s_threads s) -> t_stack th = ACall n c :: r ->
  forall m y, nth_error (s_nodes s) m = Some y -> (In n (n_deps y) -> n_live y = false) /\ (In n (n_inst y) -> n_fin y = true).
Proof.
  intros k h l s th n c r R I ST m y Y. pose proof (reached_good _ _ _ _ R) as G. pose proof (g_known s G th (ACall n c) I) as F. rewrite ST in F. specialize (F (or_introl eq_refl)). cbn beta iota in F. unfold freeOf in F.
  destruct (nth_error (s_nodes s) n) as [x|] eqn:X; [|discriminate]. destruct (pending_one s n x th (ACall n c) G X I) as (LV & _); [rewrite ST; left; reflexivity|cbn; apply Nat.eqb_refl|]. exact (dead_unused s n x m y G X LV Y).
Qed.

(** ** Not nested *)
Definition isDec (a : act) : bool := match a with ADec _ => true | _ => false end.
Lemma flat_none : forall (f : act -> bool) k, forallb flatAct k = true -> (forall n, f (ARel n) = false /\ f (AInst n) = false) -> occA f k = 0.
Proof. intros f k F H. apply total_zero. intros a A. rewrite forallb_forall in F. specialize (F a A). destruct a; try discriminate; destruct (H n) as (H1 & H2); rewrite ?H1, ?H2; reflexivity. Qed.
Lemma not_nested : forall k h l s th, reached k h l s -> In th (s_threads s) -> (t_depth th <= 2)%nat /\ forall n c r, t_stack th = ACall n c :: r -> occA isDec r = 1 /\ t_depth th = 1%nat.
Proof.
  intros k h l s th R I. pose proof (reached_good _ _ _ _ R) as G. pose proof (g_threads s G th I) as W. split; [destruct W as [(D & _)|[(D & _)|(D & _)]]; lia|].
  intros n c r ST. destruct th as [st d fl]. cbn in ST. subst st. pose proof (wf_head _ _ _ _ _ W) as Q. cbn beta iota in Q. destruct Q as (-> & _ & q & F & _ & ->). split; [|reflexivity].
  rewrite !occA_cons. cbn [isDec isZ]. rewrite flat_none; [lia|exact F|auto].
Qed.

(** ** The core goes last *)
Lemma call_dec : forall ns th n c, wfThread ns th -> In (ACall n c) (t_stack th) -> inCore ns c n = true /\ In (ADec c) (t_stack th).
Proof.
  intros ns th n c W I. assert (FK : forall k, forallb flatAct k = true -> ~ In (ACall n c) k) by (intros k F J; rewrite forallb_forall in F; specialize (F _ J); discriminate).
  assert (CK : forall d a, forallb (coreAct ns d) a = true -> ~ In (ACall n c) a) by (intros d a F J; rewrite forallb_forall in F; specialize (F _ J); discriminate).
  destruct W as [(D & L & [W|(d & W)])|[(D & k & F & W)|(D & k & d & a & F & L & A & E)]].
  - exfalso. exact (FK _ W I).
  - rewrite W in I. destruct I as [I|[]]. discriminate.
  - destruct W as [(W & L)|(d & L & [W|[(m & M & W)|(a & A & W)]])]; rewrite W in I; rewrite W.
    + exfalso. destruct I as [I|I]; [discriminate|exact (FK _ F I)].
    + exfalso. destruct I as [I|[I|I]]; [discriminate|discriminate|exact (FK _ F I)].
    + destruct I as [[= <- <-]|[I|[I|[I|I]]]]; try discriminate; [split; [exact M|right; left; reflexivity]|exfalso; exact (FK _ F I)].
    + exfalso. apply in_app_or in I. destruct I as [I|[I|[I|[I|I]]]]; try discriminate; [exact (CK _ _ A I)|exact (FK _ F I)].
  - exfalso. rewrite E in I. destruct I as [I|I]; [discriminate|]. apply in_app_or in I. destruct I as [I|[I|[I|[I|I]]]]; try discriminate; [exact (CK _ _ A I)|exact (FK _ F I)].
Qed.
Lemma phase_zero : forall s n x, good s -> nth_error (s_nodes s) n = Some x -> (forall th, In th (s_threads s) -> keepers (s_nodes s) (n_core x) th = 0) -> phase s n = 0.
Proof.
  intros s n x G X K. unfold phase. apply total_zero. intros th I. specialize (K th I).
  assert (occ n (t_list th) = 0).
  { apply occ_zero. intros J. pose proof (keepers_list (s_nodes s) (n_core x) th n J) as Q. rewrite (core_is _ _ x) in Q by exact X. specialize (Q (Nat.eqb_refl _)). lia. }
  assert (occA (isPending n) (t_stack th) = 0); [|lia]. apply total_zero. intros a A. destruct a; try reflexivity; cbn [isPending]; destruct (Nat.eqb_spec n0 n) as [->|NE]; try reflexivity; exfalso.
  - assert (1 <= keepers (s_nodes s) (n_core x) th); [|lia]. apply (keepers_stack _ _ _ (AInst n) A). cbn. rewrite (core_is _ _ x) by exact X. apply Nat.eqb_refl.
  - destruct (call_dec _ _ _ _ (g_threads s G th I) A) as (C & D). rewrite (core_is _ _ x) in C by exact X. apply Nat.eqb_eq in C. subst c.
    assert (1 <= keepers (s_nodes s) (n_core x) th); [|lia]. apply (keepers_stack _ _ _ (ADec (n_core x)) D). cbn. apply Nat.eqb_refl.
Qed.
Lemma keepers_nonneg : forall ns c th, 0 <= keepers ns c th.
Proof. intros ns c th. unfold keepers. pose proof (occA_nonneg (keeps ns c) (t_stack th)). assert (0 <= total (fun n => isZ (inCore ns c n)) (t_list th)) by (apply total_nonneg; intros; apply isZ_nonneg). lia. Qed.
Lemma core_last : forall k h l s c q, reached k h l s -> nth_error (s_cores s) c = Some q ->
  occE (isDelete c) (s_log s) = isZ (k_deleted q) /\
  (k_deleted q = true -> k_handle q = false /\ forall n x, nth_error (s_nodes s) n = Some x -> n_core x = c -> n_live x = false /\ n_refs x = 0 /\ occE (isFree n) (s_log s) = isZ (n_free x)).
Proof.
  intros k h l s c q R Q. pose proof (reached_good _ _ _ _ R) as G. destruct (g_cores s G c q Q) as (A & B & C). split; [exact C|]. intros D. rewrite D in B. symmetry in B. apply Z.eqb_eq in B. unfold kept in A.
  assert (P1 : 0 <= total (fun m => isZ (n_live m && Nat.eqb (n_core m) c)) (s_nodes s)) by (apply total_nonneg; intros; apply isZ_nonneg).
  assert (P2 : 0 <= total (keepers (s_nodes s) c) (s_threads s)) by (apply total_nonneg; intros; apply keepers_nonneg). pose proof (isZ_nonneg (k_handle q)) as P3.
  split; [destruct (k_handle q); [cbn [isZ] in *; lia|reflexivity]|]. intros n x X XC. destruct (g_nodes s G n x X) as (N1 & N2 & N3 & N4 & N5 & N6 & _).
  assert (LV : n_live x = false).
  { assert (Z0 : isZ (n_live x && Nat.eqb (n_core x) c) = 0) by (apply (total_zero_inv _ (fun m => isZ (n_live m && Nat.eqb (n_core m) c)) (s_nodes s)); [intros; apply isZ_nonneg|lia|apply nth_error_In in X; exact X]).
    rewrite XC, Nat.eqb_refl, andb_true_r in Z0. destruct (n_live x); [discriminate|reflexivity]. }
  split; [exact LV|]. rewrite LV in N5. symmetry in N5. apply Z.ltb_ge in N5. split; [lia|]. rewrite (g_log s G n x X).
  rewrite (phase_zero s n x G X) in N6. { rewrite LV in N6. destruct (n_fin x); [rewrite andb_true_r; reflexivity|cbn [isZ] in N6; lia]. }
  intros th I. rewrite XC. apply (total_zero_inv _ (keepers (s_nodes s) c) (s_threads s)); [intros; apply keepers_nonneg|lia|exact I].
Qed.

(** ** When all is given back *)
Definition quiet (s : state) : Prop := forall th, In th (s_threads s) -> t_stack th = [].
Definition givenBack (s : state) : Prop := forall n x, nth_error (s_nodes s) n = Some x -> n_ext x = 0 /\ n_lost x = 0.
Lemma quiet_phase : forall s n, good s -> quiet s -> phase s n = 0 /\ total (fun th => occA (isRel n) (t_stack th)) (s_threads s) = 0.
Proof.
  intros s n G Q. split; apply total_zero; intros th I; rewrite (Q th I); [|reflexivity]. destruct (idle_shape _ _ (g_threads s G th I) (Q th I)) as (_ & ->). reflexivity.
Qed.
Lemma total_pos : forall A (f : A -> Z) l, 0 < total f l -> exists x, In x l /\ 0 < f x.
Proof. intros A f l. induction l as [|x l IH]; [cbn; lia|]. rewrite total_cons. intros H. destruct (Z.lt_ge_cases 0 (f x)) as [P|P]; [exists x; cbn; auto|]. destruct IH as (y & I & Y); [lia|]. exists y. cbn. auto. Qed.
Lemma nothing_left : forall s, good s -> quiet s -> givenBack s -> forall n x, nth_error (s_nodes s) n = Some x -> n_live x = false /\ n_fin x = true.
Proof.
  intros s G Q B. assert (H : forall d n x, (List.length (s_nodes s) - n <= d)%nat -> nth_error (s_nodes s) n = Some x -> n_live x = false /\ n_fin x = true).
  { induction d as [|d IH]; intros n x L X; [pose proof (nth_error_Some_bound _ _ _ _ X); lia|].
    destruct (g_nodes s G n x X) as (N1 & N2 & N3 & N4 & N5 & N6 & _). destruct (quiet_phase s n G Q) as (P1 & P2). destruct (B n x X) as (B1 & B2). rewrite P1 in N6.
    assert (LV : n_live x = false).
    { destruct (n_live x) eqn:LV; [exfalso|reflexivity]. symmetry in N5. apply Z.ltb_lt in N5. unfold refsOf in N1. rewrite P2 in N1.
      destruct (total_pos _ (holds n) (s_nodes s) ltac:(lia)) as (y & IY & HY). apply In_nth_error in IY. destruct IY as (m & Y). destruct (g_nodes s G m y Y) as (_ & _ & _ & _ & _ & _ & _ & N8 & _).
      assert (U : In n (n_deps y) \/ In n (n_inst y)).
      { destruct (in_dec Nat.eq_dec n (n_deps y)) as [|D1]; [auto|]. destruct (in_dec Nat.eq_dec n (n_inst y)) as [|D2]; [auto|]. exfalso. unfold holds in HY. rewrite !occ_zero in HY by assumption. destruct (n_live y), (n_fin y); lia. }
      destruct (N8 n U) as (LT & _). pose proof (nth_error_Some_bound _ _ _ _ Y). destruct (IH m y ltac:(lia) Y) as (L1 & L2). unfold holds in HY. rewrite L1, L2 in HY. lia. }
    split; [exact LV|]. rewrite LV in N6. destruct (n_fin x); [reflexivity|cbn [isZ] in N6; lia]. }
  intros n x. apply (H (List.length (s_nodes s) - n)%nat). lia.
Qed.
Lemma all_freed : forall k h l s, reached k h l s -> quiet s -> givenBack s ->
  (forall n x, nth_error (s_nodes s) n = Some x -> n_live x = false /\ occE (isFree n) (s_log s) = isZ (n_free x)) /\
  (forall c q, nth_error (s_cores s) c = Some q -> k_deleted q = negb (k_handle q) /\ occE (isDelete c) (s_log s) = isZ (negb (k_handle q))).
Proof.
  intros k h l s R Q B. pose proof (reached_good _ _ _ _ R) as G. pose proof (nothing_left s G Q B) as N. split.
  - intros n x X. destruct (N n x X) as (L & F). split; [exact L|]. rewrite (g_log s G n x X), F, andb_true_r. reflexivity.
  - intros c q C. destruct (g_cores s G c q C) as (A & D & E). assert (K0 : kept s c = 0).
    { unfold kept. rewrite (total_zero _ (fun m => isZ (n_live m && Nat.eqb (n_core m) c))), (total_zero _ (keepers (s_nodes s) c)); [reflexivity| |].
      - intros th I. unfold keepers. rewrite (Q th I). destruct (idle_shape _ _ (g_threads s G th I) (Q th I)) as (_ & ->). reflexivity.
      - intros x I. apply In_nth_error in I. destruct I as (n & X). rewrite (proj1 (N n x X)). reflexivity. }
    rewrite K0 in A. assert (DD : k_deleted q = negb (k_handle q)) by (rewrite D, A; destruct (k_handle q); reflexivity). split; [exact DD|]. rewrite E, DD. reflexivity.
Qed.

(** ** The work ends *)
Definition instLen (ns : list node) (n : nat) : Z := match nth_error ns n with Some x => Z.of_nat (List.length (n_inst x)) | None => 0 end.
Definition weight (ns : list node) (a : act) : Z := match a with ARel _ => 1 | AInst n => instLen ns n + 9 | ALoop _ => 1 | ACall n _ => instLen ns n + 1 | ADec _ => 1 | ALeave => 1 end.
Definition nodeWeight (x : node) : Z := if n_live x then Z.of_nat (List.length (n_deps x)) + Z.of_nat (List.length (n_inst x)) + 12 else 0.
Definition threadWeight (ns : list node) (th : thread) : Z := total (weight ns) (t_stack th) + total (fun n => instLen ns n + 5) (t_list th).
Definition potential (s : state) : Z := total nodeWeight (s_nodes s) + total (threadWeight (s_nodes s)) (s_threads s).
Lemma weight_nonneg : forall s, 0 <= potential s.
Proof.
  intros s. assert (I0 : forall n, 0 <= instLen (s_nodes s) n) by (intros n; unfold instLen; destruct (nth_error _ _); lia).
  assert (0 <= total nodeWeight (s_nodes s)) by (apply total_nonneg; intros x _; unfold nodeWeight; destruct (n_live x); lia).
  assert (0 <= total (threadWeight (s_nodes s)) (s_threads s)); [|unfold potential; lia]. apply total_nonneg. intros th _. unfold threadWeight.
  assert (0 <= total (weight (s_nodes s)) (t_stack th)) by (apply total_nonneg; intros a _; destruct a; cbn [weight]; try pose proof (I0 n); lia).
  assert (0 <= total (fun n => instLen (s_nodes s) n + 5) (t_list th)) by (apply total_nonneg; intros n _; pose proof (I0 n); lia). lia.
Qed.
Lemma rel_weight : forall ns l, total (weight ns) (map ARel l) = Z.of_nat (List.length l).
Proof. intros ns l. induction l as [|n l IH]; [reflexivity|]. cbn [map List.length]. rewrite total_cons, IH. cbn [weight]. lia. Qed.
Lemma inst_upd : forall ns n x y m, nth_error ns n = Some x -> n_inst y = n_inst x -> instLen (upd n y ns) m = instLen ns m.
Proof. intros ns n x y m X E. unfold instLen. destruct (Nat.eq_dec n m) as [->|NE]; [rewrite (upd_same _ _ _ _ _ X), X, E; reflexivity|rewrite upd_other by exact NE; reflexivity]. Qed.
Lemma thread_upd : forall ns n x y th, nth_error ns n = Some x -> n_inst y = n_inst x -> threadWeight (upd n y ns) th = threadWeight ns th.
Proof. intros ns n x y th X E. unfold threadWeight. f_equal; apply total_ext; intros a _; [destruct a; cbn [weight]; rewrite ?(inst_upd _ _ x y) by assumption; reflexivity|rewrite (inst_upd _ _ x y) by assumption; reflexivity]. Qed.
Lemma step_less : forall s t s', step s t = Ok s' -> potential s' < potential s.
Proof.
  intros s t s' ST. unfold step in ST. destruct (nth_error (s_threads s) t) as [[st d fl]|] eqn:T; [|discriminate]. cbn [t_stack t_depth t_list] in ST. cbv zeta in ST.
  assert (PT : forall ns' th' cs' log', total (threadWeight ns') (upd t th' (s_threads s)) = total (threadWeight (s_nodes s)) (s_threads s) - threadWeight (s_nodes s) (mkT st d fl) + threadWeight (s_nodes s) th' ->
     total nodeWeight ns' + threadWeight (s_nodes s) th' < total nodeWeight (s_nodes s) + threadWeight (s_nodes s) (mkT st d fl) -> potential (mkS ns' (upd t th' (s_threads s)) cs' log') < potential s).
  { intros ns' th' cs' log' E L. unfold potential. cbn [s_nodes s_threads]. rewrite E. lia. }
  assert (P0 : forall th', total (threadWeight (s_nodes s)) (upd t th' (s_threads s)) = total (threadWeight (s_nodes s)) (s_threads s) - threadWeight (s_nodes s) (mkT st d fl) + threadWeight (s_nodes s) th') by (intros; apply total_upd; exact T).
  assert (P1 : forall n x y th', nth_error (s_nodes s) n = Some x -> n_inst y = n_inst x -> total (threadWeight (upd n y (s_nodes s))) (upd t th' (s_threads s)) = total (threadWeight (s_nodes s)) (s_threads s) - threadWeight (s_nodes s) (mkT st d fl) + threadWeight (s_nodes s) th').
  { intros n x y th' X E. rewrite <- P0. apply total_ext. intros u _. apply (thread_upd _ _ x); assumption. }
  destruct st as [|[n|n|c|n c|c|] r]; [discriminate|..].
  - destruct (nth_error (s_nodes s) n) as [x|] eqn:X; [|discriminate]. destruct (n_live x) eqn:LV; cbn [negb] in ST; [|discriminate]. destruct (n_refs x =? 1); injection ST as <-.
    + apply PT; [apply (P1 n x); auto|]. rewrite (total_upd _ _ _ _ _ _ X). unfold threadWeight. cbn [t_stack t_list]. rewrite total_app, !total_cons, rel_weight. cbn [weight]. unfold nodeWeight at 2 3, instLen. cbn [n_live withRefs]. rewrite LV, X. lia.
    + apply PT; [apply (P1 n x); auto|]. rewrite (upd_total _ _ _ _ _ _ X) by (unfold nodeWeight; cbn [n_live n_deps n_inst withRefs]; rewrite LV; reflexivity). unfold threadWeight. cbn [t_stack t_list]. rewrite total_cons. cbn [weight]. lia.
  - destruct (nth_error (s_nodes s) n) as [x|] eqn:X; [|discriminate]. destruct (negb (alive _ _)); [discriminate|].
    assert (WS : forall q, total (weight (s_nodes s)) (if Nat.eqb d 0 then ALoop q :: ALeave :: r else ALeave :: r) <= 2 + total (weight (s_nodes s)) r) by (intros q; destruct (Nat.eqb _ _); rewrite !total_cons; cbn [weight]; lia).
    assert (0 <= instLen (s_nodes s) n) by (unfold instLen; rewrite X; lia). specialize (WS (n_core x)).
    destruct (n_free x).
    + injection ST as <-. apply PT; [apply P0|]. unfold threadWeight. cbn [t_stack t_list]. rewrite (total_cons _ _ (AInst n)), (total_cons _ _ n). cbn [weight]. lia.
    + destruct (decCore _ _ _) as [[cs' log']| |]; cbn [obind fst snd] in ST; try discriminate. injection ST as <-. apply PT; [apply (P1 n x); auto|]. rewrite (upd_total _ _ _ _ _ _ X) by reflexivity. unfold threadWeight. cbn [t_stack t_list]. rewrite (total_cons _ _ (AInst n)). cbn [weight]. lia.
  - destruct fl as [|n fl]; [injection ST as <-|destruct (alive _ _); [injection ST as <-|discriminate]]; (apply PT; [apply P0|]); unfold threadWeight; cbn [t_stack t_list]; rewrite !total_cons; cbn [weight]; lia.
  - destruct (nth_error (s_nodes s) n) as [x|] eqn:X; [|discriminate]. destruct (n_fin x || _); [discriminate|]. injection ST as <-. apply PT; [apply (P1 n x); auto|]. rewrite (upd_total _ _ _ _ _ _ X) by reflexivity.
    unfold threadWeight. cbn [t_stack t_list]. rewrite total_app, total_cons, rel_weight. cbn [weight]. unfold instLen. rewrite X. lia.
  - destruct (decCore _ _ _) as [[cs' log']| |]; cbn [obind fst snd] in ST; try discriminate. injection ST as <-. apply PT; [apply P0|]. unfold threadWeight. cbn [t_stack t_list]. rewrite total_cons. cbn [weight]. lia.
  - injection ST as <-. apply PT; [apply P0|]. unfold threadWeight. cbn [t_stack t_list]. rewrite total_cons. cbn [weight]. lia.
Qed.
(** Steps of threads only, each of which really happens. *)
Fixpoint steps (s : state) (l : list nat) : outcome state := match l with [] => Ok s | t :: r => obind (step s t) (fun s' => steps s' r) end.
Lemma steps_less : forall l s s', steps s l = Ok s' -> potential s' + Z.of_nat (List.length l) <= potential s.
Proof.
  induction l as [|t l IH]; cbn [steps List.length]; intros s s' R; [injection R as <-; lia|]. destruct (step s t) as [s1| |] eqn:E; cbn [obind] in R; try discriminate. pose proof (step_less s t s1 E). pose proof (IH s1 s' R). lia.
Qed.
Lemma steps_good : forall l s s', good s -> steps s l = Ok s' -> good s'.
Proof.
  induction l as [|t l IH]; cbn [steps]; intros s s' G R; [injection R as <-; exact G|]. destruct (step s t) as [s1| |] eqn:E; cbn [obind] in R; try discriminate. apply (IH s1 s'); [|exact R].
  destruct (step_good s t G) as [F|(s2 & F & G2)]; rewrite E in F; [discriminate|]. injection F as <-. exact G2.
Qed.
Lemma busy_steps : forall s, good s -> quiet s \/ exists t s', step s t = Ok s'.
Proof.
  intros s G. destruct (forallb (fun th => match t_stack th with [] => true | _ => false end) (s_threads s)) eqn:F.
  - left. intros th I. rewrite forallb_forall in F. specialize (F th I). destruct (t_stack th); [reflexivity|discriminate].
  - right. assert (X : exists th, In th (s_threads s) /\ t_stack th <> []).
    { clear G. induction (s_threads s) as [|th l IH]; [discriminate|]. cbn in F. destruct (t_stack th) as [|a r] eqn:E; [destruct (IH F) as (u & I & N); exists u; cbn; auto|exists th; split; [left; reflexivity|congruence]]. }
    destruct X as (th & I & N). apply In_nth_error in I. destruct I as (t & T). exists t. destruct (step_good s t G) as [E|(s' & E & _)]; [|eauto]. exfalso. unfold step in E. rewrite T in E.
    destruct (t_stack th) as [|[n|n|c|n c|c|] r] eqn:S; [congruence|..].
    + destruct (nth_error (s_nodes s) n) as [x|]; [|discriminate]. destruct (negb _); [discriminate|]. destruct (_ =? _); discriminate.
    + destruct (nth_error (s_nodes s) n) as [x|]; [|discriminate]. destruct (negb _); [discriminate|]. destruct (n_free x); [discriminate|]. destruct (decCore _ _ _) as [[a b]| |] eqn:DC; cbn in E; try discriminate. unfold decCore in DC. destruct (nth_error (s_cores s) _) as [q|]; [|discriminate]. destruct (k_deleted q); [discriminate|]. destruct (_ =? _); [destruct (k_handle q)|]; discriminate.
    + destruct (t_list th); [discriminate|]. destruct (alive _ _); discriminate.
    + destruct (nth_error (s_nodes s) n) as [x|]; [|discriminate]. destruct (_ || _); discriminate.
    + destruct (decCore _ _ _) as [[a b]| |] eqn:DC; cbn in E; try discriminate. unfold decCore in DC. destruct (nth_error (s_cores s) _) as [q|]; [|discriminate]. destruct (k_deleted q); [discriminate|]. destruct (_ =? _); [destruct (k_handle q)|]; discriminate.
    + discriminate.
Qed.
Lemma work_ends : forall k h l s, reached k h l s -> exists bound, forall ts s', steps s ts = Ok s' -> (List.length ts <= bound)%nat /\ (quiet s' \/ exists t s'', step s' t = Ok s'').
Proof.
  intros k h l s R. pose proof (reached_good _ _ _ _ R) as G. exists (Z.to_nat (potential s)). intros ts s' S. pose proof (steps_less _ _ _ S). pose proof (weight_nonneg s'). split; [lia|]. apply busy_steps. exact (steps_good _ _ _ G S).
Qed.
