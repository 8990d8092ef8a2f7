(** Rational constants, to run the optimiser on examples.  Powers with exponents that are not integers, and
    the functions of the mathematics library, are not rational and give 0 here; no example folds one. *)
From Coq Require Import ZArith QArith Qabs Qpower Qcanon List Bool.
From Verif Require Import RwSyntax.
Import ListNotations.
Open Scope Q_scope.

Definition qisint (q : Q) : bool := Pos.eqb (Qden (Qred q)) 1.
Definition qpow (a b : Q) : Q := if qisint b then Qred (Qpower a (Qnum (Qred b))) else 0.
Definition qdec : forall a b : Q, {a = b} + {a <> b}.
Proof. decide equality; [apply Pos.eq_dec | apply Z.eq_dec]. Defined.
Definition rat : arith := {|
  K := Q; kdec := qdec;
  keq := Qeq_bool; klt := fun a b => negb (Qle_bool b a);
  kint := inject_Z; khalf := 1 # 2;
  kadd := fun a b => Qred (a + b); ksub := fun a b => Qred (a - b); kmul := fun a b => Qred (a * b); kdiv := fun a b => Qred (a / b);
  kneg := fun a => Qred (- a); kabs := fun a => Qred (Qabs a); kpow := qpow; kfun := fun _ _ => 0;
  kisint := qisint; ktoint := fun a => Qnum (Qred a); kfinite := fun _ => true |}.
Notation ratEx := (ex rat).
Definition num (z : Z) : ratEx := @Const rat (inject_Z z).
Definition X : ratEx := Load 0. Definition Y : ratEx := Load 1. Definition W : ratEx := Load 2.
