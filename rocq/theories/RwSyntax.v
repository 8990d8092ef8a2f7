(** Expressions as the optimiser of Expr sees them, over an abstract arithmetic of constants.
    src/core/expr/expr.h:33-80, expr.cpp:42-107.  A third operand, which hangs below a MUX node in the
    program, is a direct operand here; loads are told apart by the number of the clip alone, since the
    format follows from it. *)
From Coq Require Import ZArith List Bool.
Import ListNotations.

Inductive uop := uSqrt | uAbs | uNeg | uNot | uExp | uLog | uSin | uCos.
Inductive bop := bAdd | bSub | bMul | bDiv | bMax | bMin | bAnd | bOr | bXor | bPow.
Inductive cmp := cEQ | cLT | cLE | cNEQ | cNLT | cNLE.
Inductive fma := fMADD | fMSUB | fNMADD | fNMSUB.

(** The constants ("float" in the program): same bits, ==, <, arithmetic, std::pow, the one argument
    functions of the mathematics library, floor(x) == x, static_cast<int>, isfinite. *)
Record arith := mkA {
  K : Type;
  kdec : forall a b : K, {a = b} + {a <> b};
  keq : K -> K -> bool; klt : K -> K -> bool;
  kint : Z -> K; khalf : K;
  kadd : K -> K -> K; ksub : K -> K -> K; kmul : K -> K -> K; kdiv : K -> K -> K;
  kneg : K -> K; kabs : K -> K; kpow : K -> K -> K; kfun : uop -> K -> K;
  kisint : K -> bool; ktoint : K -> Z; kfinite : K -> bool }.

Section Syntax.
Variable A : arith.

Inductive ex :=
| Const (k : K A)
| Load (i : nat)
| Un (u : uop) (a : ex)
| Bin (b : bop) (a c : ex)
| Cmp (c : cmp) (a b : ex)
| Fma (f : fma) (a b c : ex)    (* b * c + a and its variants *)
| Tern (c a b : ex).

Definition uop_dec : forall a b : uop, {a = b} + {a <> b}. Proof. decide equality. Defined.
Definition bop_dec : forall a b : bop, {a = b} + {a <> b}. Proof. decide equality. Defined.
Definition cmp_dec : forall a b : cmp, {a = b} + {a <> b}. Proof. decide equality. Defined.
Definition fma_dec : forall a b : fma, {a = b} + {a <> b}. Proof. decide equality. Defined.
(** equalSubTree, expr.cpp:109-122 *)
Definition ex_dec : forall a b : ex, {a = b} + {a <> b}.
Proof.
  decide equality; [apply kdec | apply PeanoNat.Nat.eq_dec | apply uop_dec | apply bop_dec | apply cmp_dec | apply fma_dec].
Defined.
Definition exeq (a b : ex) : bool := if ex_dec a b then true else false.
End Syntax.
Arguments Const {A}. Arguments Load {A}. Arguments Un {A}. Arguments Bin {A}. Arguments Cmp {A}. Arguments Fma {A}. Arguments Tern {A}.
Arguments exeq {A}. Arguments ex_dec {A}.
Notation Add := (Bin bAdd). Notation Sub := (Bin bSub). Notation Mul := (Bin bMul). Notation Div := (Bin bDiv). Notation Pow := (Bin bPow).
Notation Neg := (Un uNeg). Notation Abs := (Un uAbs). Notation Sqrt := (Un uSqrt). Notation Not := (Un uNot).
