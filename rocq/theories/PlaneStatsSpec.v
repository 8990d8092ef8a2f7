(** What the statistics of a plane are. *)
From Coq Require Import ZArith List Lia Bool SpecFloat QArith Qabs Qpower.
From Verif Require Import Common ImageSpec.
Import ListNotations.
Open Scope Z_scope.

Definition overImage {A} (w h : Z) (f : Z -> Z -> A) : list A := flat_map (fun y => map (fun x => f x y) (zseq w)) (zseq h).
Definition samplesOf (a : image) : list Z := overImage (i_w a) (i_h a) (i_at a).

Definition least (l : list Z) (m : Z) : Prop := In m l /\ forall v, In v l -> m <= v.
Definition greatest (l : list Z) (m : Z) : Prop := In m l /\ forall v, In v l -> v <= m.
Definition sumOf (l : list Z) : Z := fold_right Z.add 0 l.
(** Sum of the absolute differences. *)
Definition distance (a b : image) : Z := sumOf (overImage (i_w a) (i_h a) (fun x y => Z.abs (i_at a x y - i_at b x y))).

(** A double precision number within a relative error of 2^-51 of the quotient. *)
Definition quotient64 (num den : Z) (x : spec_float) : Prop :=
  if num =? 0 then x = S754_zero false
  else exists m e, x = S754_finite false m e /\
    (Qabs (inject_Z (Z.pos m) * Qpower (2 # 1) e * inject_Z den - inject_Z num) * inject_Z (2 ^ 51) <= inject_Z num)%Q.
