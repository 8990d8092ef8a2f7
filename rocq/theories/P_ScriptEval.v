(** C101: what callers of vsscript are told about a script. *)
From Coq Require Import ZArith List Bool Lia Sorted Permutation.
From Verif Require Import Common ScriptEvalSpec ScriptEval ScriptEvalFacts.
Import ListNotations.
Open Scope Z_scope.

Theorem C101_result : forall cs c, exists s r s' s'', evaluateAll cs newScript = Ok s /\ evaluate c s = Ok (r, s') /\ (r = 0 <-> succeeds c) /\ getError s' = Ok (errorOf c) /\ freeScript s' = Ok s''.
Proof. exact result. Qed.
Print Assumptions C101_result.

Theorem C101_exit_partial : forall cs c s r s', Forall succeeds cs -> evaluateAll cs newScript = Ok s -> evaluate c s = Ok (r, s') -> getExitCode s' = exitOf c.
Proof. exact exit_code. Qed.
Print Assumptions C101_exit_partial.

Theorem C101_exit_refuted : exists a c s r s', evaluateAll [a] newScript = Ok s /\ evaluate c s = Ok (r, s') /\ errorOf c = Some (MsgPython 1) /\ getExitCode s' <> exitOf c.
Proof. exact exit_stale. Qed.
Print Assumptions C101_exit_refuted.

Theorem C101_released_partial : forall cs c s r s' s'', Forall succeeds cs -> c_after c = None -> evaluateAll cs newScript = Ok s -> evaluate c s = Ok (r, s') -> freeScript s' = Ok s'' ->
  Forall (fun x => snd x = 0) (s_strings s'').
Proof. exact released. Qed.
Print Assumptions C101_released_partial.

Theorem C101_leak_refuted : (exists c r s s', evaluate c newScript = Ok (r, s) /\ freeScript s = Ok s' /\ ~ Forall (fun x => snd x = 0) (s_strings s')) /\
  exists a b s s', c_after a = None /\ c_after b = None /\ evaluateAll [a; b] newScript = Ok s /\ freeScript s = Ok s' /\ ~ Forall (fun x => snd x = 0) (s_strings s').
Proof. exact leaked. Qed.
Print Assumptions C101_leak_refuted.

Theorem C101_outputs : forall keys size, exists written, availableOutputs keys size = Ok (written, zlength keys) /\
  StronglySorted Z.le written /\ Permutation written (firstn (Z.to_nat size) keys) /\ zlength written <= Z.max 0 size.
Proof. exact outputs. Qed.
Print Assumptions C101_outputs.

(** A script that works and one that exits; an error replaced by the next; outputs with room for all, for two and for none. *)
Example C101_ex_exit : exists s r s', evaluateAll [mkC None Finishes None] newScript = Ok s /\ evaluate (mkC None (Exits (CInt 7)) None) s = Ok (r, s') /\
  r = 3 /\ getError s' = Ok (Some (MsgExit (CInt 7))) /\ getExitCode s' = 7.
Proof. do 3 eexists. repeat split. Qed.
Example C101_ex_replaced : exists s, evaluateAll [mkC None (Raises 1) None; mkC (Some 2) Finishes None] newScript = Ok s /\ getError s = Ok (Some (MsgFile 2)).
Proof. eexists. split; reflexivity. Qed.
Example C101_ex_recovers : exists s, evaluateAll [mkC None (Raises 1) None; mkC None Finishes None] newScript = Ok s /\ getError s = Ok None.
Proof. eexists. split; reflexivity. Qed.
Example C101_ex_outputs : availableOutputs [4; 0; 2] 5 = Ok ([0; 2; 4], 3) /\ availableOutputs [4; 0; 2] 2 = Ok ([0; 4], 3) /\ availableOutputs [4; 0; 2] 0 = Ok ([], 3).
Proof. repeat split. Qed.
