(** What describes a clip, and clips of one colour.  Does not import the model. *)
From Coq Require Import ZArith Lia.
From Verif Require Import Common FormatSpec.
Open Scope Z_scope.

(** doc/api/vapoursynth4.h.rst, VSVideoInfo: the frame rate is a reduced fraction or 0/0. *)
Definition goodRate (num den : Z) : Prop := num = 0 /\ den = 0 \/ 0 < num /\ 0 < den /\ Z.gcd num den = 1.
Definition goodSize (w h : Z) : Prop := w = 0 /\ h = 0 \/ 0 < w /\ 0 < h.
(** Known, or not the same for all frames. *)
Definition goodFormat (f : vfmt) : Prop := f_cf f = cfUndefined /\ f_bytes f = 0 /\ f_np f = 0 \/ fmt_valid f.
(** The rate [num/den] as a fraction. *)
Definition sameRate (num den num' den' : Z) : Prop := num * den' = num' * den.
