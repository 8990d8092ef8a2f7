(** The vocabulary of Expr: operations, trees and instructions.  src/core/expr/expr.h:33-106, expr.cpp:42-52 *)
From Coq Require Import ZArith List Bool.
Import ListNotations.
Open Scope Z_scope.

(** enum class ExprOpType, in its order *)
Inductive optype :=
| oLoadU8 | oLoadU16 | oLoadF16 | oLoadF32 | oConst | oStoreU8 | oStoreU16 | oStoreF16 | oStoreF32
| oAdd | oSub | oMul | oDiv | oFma | oSqrt | oAbs | oNeg | oMax | oMin | oCmp | oAnd | oOr | oXor | oNot
| oExp | oLog | oPow | oSin | oCos | oTernary | oMux | oDup | oSwap.
Definition optype_eq_dec : forall a b : optype, {a = b} + {a <> b}.
Proof. decide equality. Defined.
Definition opIs (a b : optype) : bool := if optype_eq_dec a b then true else false.
(** [o_imm]: the 32 bits of ExprUnion as an unsigned number. *)
Record exprop := mkOp { o_type : optype; o_imm : Z }.
Definition opEq (a b : exprop) : bool := opIs (o_type a) (o_type b) && (o_imm a =? o_imm b).
Definition op0 (t : optype) : exprop := mkOp t 0.

(** ComparisonType and FMAType *)
Definition cmpEQ := 0. Definition cmpLT := 1. Definition cmpLE := 2. Definition cmpNEQ := 4. Definition cmpNLT := 5. Definition cmpNLE := 6.
Definition fMADD := 0. Definition fMSUB := 1. Definition fNMADD := 2. Definition fNMSUB := 3.

(** ExpressionTreeNode; [Nil]: nullptr.  Nodes are never shared between trees since DUP clones. *)
Inductive tree := Nil | Node (op : exprop) (l r : tree).
Definition isNil (t : tree) : bool := match t with Nil => true | Node _ _ _ => false end.
Definition isMux (t : tree) : bool := match t with Nil => false | Node op _ _ => opIs (o_type op) oMux end.

(** ExprInstruction; registers below zero: none. *)
Record instr := mkIn { in_op : exprop; in_dst : Z; in_src1 : Z; in_src2 : Z; in_src3 : Z }.

Lemma opIs_true : forall a b, opIs a b = true <-> a = b.
Proof. intros a b. unfold opIs. destruct (optype_eq_dec a b); split; congruence. Qed.
Lemma opEq_true : forall a b, opEq a b = true <-> a = b.
Proof.
  intros [ta ia] [tb ib]. unfold opEq. cbn [o_type o_imm]. rewrite andb_true_iff, opIs_true, Z.eqb_eq. split; [intros (-> & ->); reflexivity | intros E; injection E; auto].
Qed.
