(** Errors, exit codes and outputs of scripts. *)
From Coq Require Import ZArith List Bool Lia Sorted Permutation.
From Verif Require Import Common ScriptEvalSpec ScriptEval.
Import ListNotations.
Open Scope Z_scope.

Definition valid (s : st) : Prop := match s_err s with None => True | Some i => exists m n, nth_error (s_strings s) i = Some (m, n) /\ 0 < n end.
Lemma decRef_ok : forall l i m n, nth_error l i = Some (m, n) -> 0 < n -> exists l', decRef i l = Ok l' /\ length l' = length l.
Proof.
  induction l as [|(a, b) l IH]; intros [|i] m n E P; cbn [nth_error] in E; try discriminate E; cbn [decRef].
  - injection E as -> ->. rewrite (proj2 (Z.ltb_lt 0 n) P). eexists. split; reflexivity.
  - destruct (IH i m n E P) as (l' & -> & L). cbn [obind]. eexists. split; [reflexivity|]. cbn [length]. congruence.
Qed.
Lemma clear_ok : forall s, valid s -> exists s', clearErr s = Ok s' /\ s_err s' = None /\ s_exit s' = s_exit s.
Proof.
  intros [l [i|] x] V; unfold valid in V; cbn in V; unfold clearErr; cbn [s_err s_strings].
  - destruct V as (m & n & E & P). destruct (decRef_ok l i m n E P) as (l' & -> & _). eexists. repeat split.
  - eexists. repeat split.
Qed.
Lemma set_valid : forall m s, valid (setErr m s) /\ getError (setErr m s) = Ok (Some m).
Proof.
  intros m s. unfold valid, getError, setErr. cbn [s_err s_strings]. rewrite nth_error_app2, PeanoNat.Nat.sub_diag by lia. cbn [nth_error].
  split; [exists m, 1; split; [reflexivity | lia] | reflexivity].
Qed.
Lemma none_valid : forall s, s_err s = None -> valid s /\ getError s = Ok None.
Proof. intros s E. unfold valid, getError. rewrite E. split; [exact I | reflexivity]. Qed.
Definition exitAfter (c : call) (x : Z) : Z := match c_before c, c_script c with None, Exits a => exitCodeOf a | _, _ => x end.
Lemma evaluate_ok : forall c s, valid s -> exists r s', evaluate c s = Ok (r, s') /\ valid s' /\ (r = 0 <-> errorOf c = None) /\ getError s' = Ok (errorOf c) /\ s_exit s' = exitAfter c (s_exit s).
Proof.
  intros [[b|] p a] s V; unfold evaluate, errorOf, exitAfter; cbn [c_before c_script c_after].
  - destruct (set_valid (MsgFile b) s) as (A & B). eexists _, _. repeat split; try exact A; try exact B; intros X; discriminate X.
  - destruct (clear_ok s V) as (s1 & C & N & X).
    destruct p as [m| |c|m]; cbn [vpyEvaluate]; rewrite ?C; cbn [obind snd]; destruct a as [a|];
    lazymatch goal with
    | |- context [Ok (0, s1)] => destruct (none_valid s1 N) as (A & B)
    | |- context [setErr ?m0 ?s0] => destruct (set_valid m0 s0) as (A & B)
    end; eexists _, _; repeat split; try exact A; try exact B; try (intros Q; discriminate Q); cbn [setErr s_exit]; try exact X; try reflexivity.
Qed.
Lemma all_valid : forall cs s, valid s -> exists s', evaluateAll cs s = Ok s' /\ valid s'.
Proof.
  induction cs as [|c cs IH]; intros s V; cbn [evaluateAll]; [exists s; split; [reflexivity | exact V]|].
  destruct (evaluate_ok c s V) as (r & s1 & -> & V1 & _). cbn [obind snd]. exact (IH s1 V1).
Qed.
Lemma result : forall cs c, exists s r s' s'', evaluateAll cs newScript = Ok s /\ evaluate c s = Ok (r, s') /\ (r = 0 <-> succeeds c) /\ getError s' = Ok (errorOf c) /\ freeScript s' = Ok s''.
Proof.
  intros cs c. destruct (all_valid cs newScript I) as (s & A & V). destruct (evaluate_ok c s V) as (r & s' & B & V' & R & G & _). destruct (clear_ok s' V') as (s'' & F & _).
  exists s, r, s', s''. repeat split; try assumption; apply R.
Qed.
Lemma success_shape : forall c, succeeds c -> c = mkC None Finishes None.
Proof. intros [[b|] [m| |x|m] [a|]] S; unfold succeeds, errorOf in S; cbn in S; try discriminate S. reflexivity. Qed.
Lemma all_success : forall cs, Forall succeeds cs -> evaluateAll cs newScript = Ok newScript.
Proof. intros cs F. induction F as [|c cs S F IH]; [reflexivity|]. rewrite (success_shape c S). exact IH. Qed.
Lemma exit_code : forall cs c s r s', Forall succeeds cs -> evaluateAll cs newScript = Ok s -> evaluate c s = Ok (r, s') -> getExitCode s' = exitOf c.
Proof.
  intros cs c s r s' F A E. rewrite (all_success cs F) in A. injection A as <-. destruct (evaluate_ok c newScript I) as (r0 & s0 & E0 & _ & _ & _ & X). rewrite E in E0. injection E0 as <- <-.
  unfold getExitCode. rewrite X. unfold exitAfter, exitOf. destruct (c_before c); [reflexivity|]. destruct (c_script c) as [m| |[z| |]|m]; reflexivity.
Qed.
Lemma released : forall cs c s r s' s'', Forall succeeds cs -> c_after c = None -> evaluateAll cs newScript = Ok s -> evaluate c s = Ok (r, s') -> freeScript s' = Ok s'' ->
  Forall (fun x => snd x = 0) (s_strings s'').
Proof.
  intros cs [b p a] s r s' s'' F N A E R. cbn in N. subst a. rewrite (all_success cs F) in A. injection A as <-.
  destruct b as [b|]; [|destruct p as [m| |x|m]]; cbn in E; injection E as <- <-; cbn in R; injection R as <-; cbn; repeat constructor.
Qed.
Lemma exit_stale : exists a c s r s', evaluateAll [a] newScript = Ok s /\ evaluate c s = Ok (r, s') /\ errorOf c = Some (MsgPython 1) /\ getExitCode s' <> exitOf c.
Proof. exists (mkC None (Exits (CInt 5)) None), (mkC None (Raises 1) None). do 3 eexists. repeat split. cbn. discriminate. Qed.
Lemma leaked : (exists c r s s', evaluate c newScript = Ok (r, s) /\ freeScript s = Ok s' /\ ~ Forall (fun x => snd x = 0) (s_strings s')) /\
  exists a b s s', c_after a = None /\ c_after b = None /\ evaluateAll [a; b] newScript = Ok s /\ freeScript s = Ok s' /\ ~ Forall (fun x => snd x = 0) (s_strings s').
Proof.
  split.
  - exists (mkC None (Raises 1) (Some 2)). do 3 eexists. repeat split. intros F. inversion F as [|? ? X ?]; subst. discriminate X.
  - exists (mkC None (BadCompile 1) None), (mkC None (BadCompile 2) None). do 2 eexists. repeat split. intros F. inversion F as [|? ? X ?]; subst. discriminate X.
Qed.

(** ** Outputs *)
Lemma fill_firstn : forall keys size idx, idx < size -> fillKeys size idx keys = firstn (Z.to_nat (size - idx)) keys.
Proof.
  induction keys as [|k r IH]; intros size idx L; cbn [fillKeys]; [rewrite firstn_nil; reflexivity|].
  replace (Z.to_nat (size - idx)) with (S (Z.to_nat (size - (idx + 1)))) by lia. cbn [firstn]. f_equal.
  destruct (Z.leb_spec (size - (idx + 1)) 0); [replace (Z.to_nat (size - (idx + 1))) with O by lia; reflexivity | apply IH; lia].
Qed.
Lemma insert_perm : forall x l, Permutation (insertZ x l) (x :: l).
Proof.
  induction l as [|y l IH]; cbn [insertZ]; [apply Permutation_refl|]. destruct (x <=? y); [apply Permutation_refl|].
  apply (perm_trans (perm_skip y IH)). apply perm_swap.
Qed.
Lemma sort_perm : forall l, Permutation (sortZ l) l.
Proof. induction l as [|x l IH]; [apply Permutation_refl|]. change (sortZ (x :: l)) with (insertZ x (sortZ l)). apply (perm_trans (insert_perm x _)). apply perm_skip, IH. Qed.
Lemma insert_sorted : forall x l, StronglySorted Z.le l -> StronglySorted Z.le (insertZ x l).
Proof.
  induction l as [|y l IH]; intros S; cbn [insertZ]; [repeat constructor|]. inversion S as [|? ? A B]; subst. destruct (Z.leb_spec x y).
  - constructor; [exact S|]. constructor; [assumption|]. apply (Forall_impl _ (fun a (P : y <= a) => Z.le_trans x y a H P) B).
  - constructor; [apply IH; exact A|]. apply (Permutation_Forall (Permutation_sym (insert_perm x l))). constructor; [lia | exact B].
Qed.
Lemma sort_sorted : forall l, StronglySorted Z.le (sortZ l).
Proof. induction l as [|x l IH]; [constructor|]. apply insert_sorted, IH. Qed.
Lemma outputs : forall keys size, exists written, availableOutputs keys size = Ok (written, zlength keys) /\
  StronglySorted Z.le written /\ Permutation written (firstn (Z.to_nat size) keys) /\ zlength written <= Z.max 0 size.
Proof.
  intros keys size. unfold availableOutputs. cbv zeta. destruct (Z.ltb_spec 0 size) as [P | P].
  - rewrite fill_firstn by lia. rewrite Z.sub_0_r. set (d := firstn (Z.to_nat size) keys).
    assert (L : zlength d = Z.min size (zlength keys)) by (unfold d, zlength; rewrite firstn_length; lia).
    rewrite L. rewrite (proj2 (Z.ltb_ge _ _) (Z.le_refl _)). rewrite <- L.
    replace (Z.to_nat (zlength d)) with (length d) by (unfold zlength; lia). rewrite firstn_all, skipn_all, app_nil_r.
    exists (sortZ d). split; [reflexivity|]. split; [apply sort_sorted|]. split; [apply sort_perm|].
    unfold zlength in *. rewrite (Permutation_length (sort_perm d)). lia.
  - exists []. replace (Z.to_nat size) with O by lia. cbn [firstn]. repeat split; [constructor | constructor | unfold zlength; cbn; lia].
Qed.
