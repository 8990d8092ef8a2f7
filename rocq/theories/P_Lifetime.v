(** Property C92: filter instances are freed once, after their users, and the core goes last. *)
From Coq Require Import ZArith List Bool Lia Arith.
From Verif Require Import Common Lifetime LifetimeLemmas LifetimeFacts.
Import ListNotations.
Open Scope list_scope.
Open Scope Z_scope.

(** Two filters on a source; everything given back by two threads. *)
Definition life : list move :=
  [MUser 0 (OCreate 0 [] [] true); MUser 0 (OAdd 0); MUser 0 (OCreate 0 [0%nat] [0%nat] true); MUser 0 (OCreate 0 [0%nat] [0%nat] true); MUser 0 (OFreeCore 0); MUser 1 (ORel 1)]
  ++ map MStep [1; 0; 1; 1; 1; 1; 1]%nat ++ [MUser 0 (ORel 2)] ++ map MStep (concat (repeat [1; 0]%nat 14)).

(** Whatever users do with references they hold, and however threads interleave: no freed node or core is touched, nothing is freed twice. *)
Theorem C92_safe : forall cores threads l, exists s, run true (start cores threads) l = Ok s.
Proof. exact never_ub. Qed.
Print Assumptions C92_safe.
Example C92_safe_ex : match run true (start 1 2) life with Ok s => rev (s_log s) = [EFree 1 0; EFree 2 0; EFree 0 0; EDelete 0] /\ map n_refs (s_nodes s) = [0; 0; 0] | _ => False end.
Proof. vm_compute. split; reflexivity. Qed.

(** A free function is called once, with the core of its node. *)
Theorem C92_once : forall cores threads l s n x, reached cores threads l s -> nth_error (s_nodes s) n = Some x ->
  occE (isFree n) (s_log s) = isZ (n_free x && n_fin x) /\ forall c, In (EFree n c) (s_log s) -> c = n_core x.
Proof. exact freed_once. Qed.
Print Assumptions C92_once.

(** When it is called, nobody can use the node any more: the nodes depending on it are gone and the instances holding it have been freed. *)
Theorem C92_users_first : forall cores threads l s th n c r, reached cores threads l s -> In th (s_threads s) -> t_stack th = ACall n c :: r ->
  forall m y, nth_error (s_nodes s) m = Some y -> (In n (n_deps y) -> n_live y = false) /\ (In n (n_inst y) -> n_fin y = true).
Proof. exact users_first. Qed.
Print Assumptions C92_users_first.
Example C92_users_first_ex : match run true (start 1 2) (firstn 34 life) with Ok s => map t_stack (s_threads s) = [[ACall 0 0; ADec 0; ALoop 0; ALeave]; []] /\ map n_fin (s_nodes s) = [false; true; true] | _ => False end.
Proof. vm_compute. split; reflexivity. Qed.

(** No free function is called while another one runs on the same thread, however long the chain of filters. *)
Theorem C92_not_nested : forall cores threads l s th, reached cores threads l s -> In th (s_threads s) ->
  (t_depth th <= 2)%nat /\ forall n c r, t_stack th = ACall n c :: r -> occA isDec r = 1 /\ t_depth th = 1%nat.
Proof. exact not_nested. Qed.
Print Assumptions C92_not_nested.
Example C92_not_nested_ex : match run true (start 1 2) (firstn 34 life) with Ok s => map t_depth (s_threads s) = [1; 0]%nat | _ => False end.
Proof. vm_compute. reflexivity. Qed.

(** The core is deleted at most once, after it was given back and after the free functions of all its nodes. *)
Theorem C92_core_last : forall cores threads l s c q, reached cores threads l s -> nth_error (s_cores s) c = Some q ->
  occE (isDelete c) (s_log s) = isZ (k_deleted q) /\
  (k_deleted q = true -> k_handle q = false /\ forall n x, nth_error (s_nodes s) n = Some x -> n_core x = c -> n_live x = false /\ n_refs x = 0 /\ occE (isFree n) (s_log s) = isZ (n_free x)).
Proof. exact core_last. Qed.
Print Assumptions C92_core_last.

(** The work of releasing ends, in a number of steps fixed when it starts, and never gets stuck. *)
Theorem C92_ends : forall cores threads l s, reached cores threads l s -> exists bound, forall ts s', steps s ts = Ok s' -> (List.length ts <= bound)%nat /\ (quiet s' \/ exists t s'', step s' t = Ok s'').
Proof. exact work_ends. Qed.
Print Assumptions C92_ends.
Example C92_ends_ex : match run true (start 1 1) [MUser 0 (OCreate 0 [] [] true); MUser 0 (ORel 0)] with Ok s => match steps s [0; 0; 0; 0; 0; 0; 0]%nat with Ok s' => map t_stack (s_threads s') = [[]] | _ => False end | _ => False end.
Proof. vm_compute. reflexivity. Qed.

(** When all references are given back and the threads are idle, every instance has been freed, and a core that was given back is gone. *)
Theorem C92_all_freed : forall cores threads l s, reached cores threads l s -> quiet s -> givenBack s ->
  (forall n x, nth_error (s_nodes s) n = Some x -> n_live x = false /\ occE (isFree n) (s_log s) = isZ (n_free x)) /\
  (forall c q, nth_error (s_cores s) c = Some q -> k_deleted q = negb (k_handle q) /\ occE (isDelete c) (s_log s) = isZ (negb (k_handle q))).
Proof. exact all_freed. Qed.
Print Assumptions C92_all_freed.
Example C92_all_freed_ex : match run true (start 1 2) life with Ok s => map t_stack (s_threads s) = [[]; []] /\ map n_ext (s_nodes s) = [0; 0; 0] /\ map n_lost (s_nodes s) = [0; 0; 0] /\ map k_handle (s_cores s) = [false] | _ => False end.
Proof. vm_compute. repeat split. Qed.

(** A filter that holds a clip of another core: the list of instances to free is shared by all cores of a thread, so the other core's instance is freed with, and counted on, the wrong core, which goes while it is still in use. *)
Definition twoCores : list move := [MUser 0 (OCreate 1 [] [] true); MUser 0 (OCreate 0 [] [0%nat] true); MUser 0 (ORel 1)].
Theorem C92_two_cores_refuted : exists l s, run false (start 2 1) l = Ok s /\ In (EFree 0 0) (s_log s) /\ option_map n_core (nth_error (s_nodes s) 0) = Some 1%nat /\ exists l', run false s l' = UB.
Proof. exists (twoCores ++ map MStep (repeat 0%nat 10)). eexists. split; [vm_compute; reflexivity|]. split; [left; reflexivity|]. split; [reflexivity|]. exists [MStep 0]. reflexivity. Qed.
Print Assumptions C92_two_cores_refuted.

(** A creation that is refused never frees the instance data it was given: the clip it holds and the core stay for ever. *)
Theorem C92_refused_refuted : exists l s, reached 1 1 l s /\ quiet s /\ (forall n x, nth_error (s_nodes s) n = Some x -> n_ext x = 0) /\ map k_handle (s_cores s) = [false] /\ map k_deleted (s_cores s) = [false] /\ s_log s = [].
Proof.
  exists [MUser 0 (OCreate 0 [] [] true); MUser 0 (OFail 0 [0%nat]); MUser 0 (OFreeCore 0); MStep 0]. eexists. split; [vm_compute; reflexivity|].
  split; [intros th [<-|[]]; reflexivity|]. split; [|repeat split]. intros [|[|n]] x X; [injection X as <-; reflexivity|discriminate|discriminate].
Qed.
Print Assumptions C92_refused_refuted.
