(** Sample by sample operations on pictures. *)
From Coq Require Import ZArith List Lia Bool.
From Verif Require Import Common ImageSpec.
Open Scope Z_scope.

Definition mapped (f : Z -> Z) (a : image) : image := mkI (i_w a) (i_h a) (fun x y => f (i_at a x y)).
Definition mapped2 (f : Z -> Z -> Z) (a b : image) : image :=
  mkI (i_w a) (i_h a) (fun x y => f (i_at a x y) (i_at b x y)).

(** The largest value of an integer sample of [bits] bits; a sample is stored in more bits
    than it has and may exceed it. *)
Definition top (bits : Z) : Z := 2 ^ bits - 1.
Definition legal (bits v : Z) : Z := Z.min v (top bits).

(** A lookup table given for the legal values, applied to a picture. *)
Definition looked (bits : Z) (t : Z -> Z) (a : image) : image := mapped (fun v => t (legal bits v)) a.
Definition looked2 (bx by_ : Z) (t : Z -> Z -> Z) (a b : image) : image :=
  mapped2 (fun x y => t (legal bx x) (legal by_ y)) a b.
