(** C56: signature strings and argument checking. *)
From Coq Require Import String Ascii ZArith List Bool Lia.
From Verif Require Import Common ArgsSpec Args ArgsLemmas.
Import ListNotations.
Open Scope list_scope.

(** A signature is accepted exactly when all its entries are well formed, and means what they say; names may repeat. *)
Theorem C56_signature_partial : forall v3 s l, parseArgString v3 s = Ok l <-> Forall2 (entryOf v3) (fields ";" s) l.
Proof. exact parse_spec. Qed.
Print Assumptions C56_signature_partial.
Theorem C56_distinct_names_refuted : exists v3 s l, parseArgString v3 s = Ok l /\ ~ NoDup (map a_name l).
Proof. exact duplicate_accepted. Qed.
Print Assumptions C56_distinct_names_refuted.
(** Such a function may be impossible to call. *)
Theorem C56_uncallable : forall m, NoDup (map fst m) -> ~ acceptable [mkA (T "a") tInt false false false; mkA (T "a") tData false false false] m.
Proof. exact contradictory. Qed.
Print Assumptions C56_uncallable.
(** A call goes through exactly when the arguments are acceptable. *)
Theorem C56_invoke : forall sig m, NoDup (map fst m) -> (invokes sig m = Ok tt <-> acceptable sig m).
Proof. exact invoke_spec. Qed.
Print Assumptions C56_invoke.
(** The signature strings the core writes for the other interface version read back to the same signature. *)
Theorem C56_reads_back : forall v3 l s, Forall writable l -> argText v3 l = Ok s -> parseArgString v3 s = Ok l.
Proof. exact reads_back. Qed.
Print Assumptions C56_reads_back.
Theorem C56_writes : forall v3 l, Forall writable l -> exists s, argText v3 l = Ok s.
Proof. exact argText_ok. Qed.
Print Assumptions C56_writes.
Definition sigEx : list arg := [mkA (T "clip") tVNode false false false; mkA (T "planes") tInt true true true].
Example C56_ex : parseArgString false (T "clip:vnode;planes:int[]:opt:empty;") = Ok sigEx /\ parseArgString true (T "clip:clip;planes:int[]:empty:opt") = Ok sigEx /\
  argText true sigEx = Ok (T "clip:clip;planes:int[]:opt:empty;") /\ parseArgString false (T "clip:clip;") = Err /\ parseArgString false (T "a:int:empty;") = Err /\ parseArgString false (T "1a:int;") = Err /\
  invokes sigEx [(T "clip", (tVNode, 1%nat))] = Ok tt /\ invokes sigEx [(T "clip", (tVNode, 2%nat))] = Err /\ invokes sigEx [(T "planes", (tInt, 0%nat))] = Err /\
  invokes sigEx [(T "clip", (tVNode, 1%nat)); (T "plane", (tInt, 1%nat))] = Err /\ invokes (sigEx ++ [mkA [] tAny false false false]) [(T "clip", (tVNode, 1%nat)); (T "plane", (tInt, 1%nat))] = Ok tt.
Proof. vm_compute. repeat split. Qed.
