(** Mixing and changing the rate of audio as functions of the whole sample streams.  Does not import the model. *)
From Coq Require Import ZArith List Bool.
From Coq Require Import SpecFloat.
From Verif Require Import Common AudioSpec Soft.
Import ListNotations.
Open Scope Z_scope.

Definition zero : fl := S754_zero false.

Section Streams.
Context {S : Type}.
Variable load : S -> fl.              (* a sample as a working value *)
Variable s : stream (Z -> S).         (* the samples of all channels at a position *)
Variable N : Z.                       (* length of the clip *)

(** A working value of a channel; silence outside the clip. *)
Definition sampleAt (ch i : Z) : fl :=
  if (0 <=? i) && (i <? N) then match s i with Some cell => load (cell ch) | None => zero end else zero.

(** Weighted sum of the [numIn] channels, in their order, leaving out zero weights. *)
Definition mixAt (w : Z -> Z -> fl) (numIn oc i : Z) : fl :=
  fold_left (fun acc ic => if SFeqb (w oc ic) zero then acc else add32 acc (mul32 (w oc ic) (sampleAt ic i))) (zseq numIn) zero.

(** Output sample [m] lies at position m*q/p of the input. *)
Definition whole (p q m : Z) : Z := (m * q) / p.
Definition phaseOf (p q m : Z) : Z := (m * q) mod p.
(** Filtering: [2 * half] samples around the position with the coefficients of its phase. *)
Definition filterAt (coeff : Z -> Z -> fl) (half p q : Z) (x : Z -> fl) (m : Z) : fl :=
  to32 (fold_left (fun acc j => add64 acc (mul64 (x (whole p q m - half + 1 + j)) (coeff (phaseOf p q m) j))) (zseq (2 * half)) zero).
(** The value of an output channel: mixed, and filtered when the rate changes. *)
Definition mixedOf (mix : option (Z -> Z -> fl)) (numIn oc i : Z) : fl := match mix with Some w => mixAt w numIn oc i | None => sampleAt oc i end.
Definition valueOf (coeff : Z -> Z -> fl) (inRate outRate : Z) (mix : option (Z -> Z -> fl)) (numIn half oc m : Z) : fl :=
  if outRate =? inRate then mixedOf mix numIn oc m
  else filterAt coeff half (outRate / Z.gcd inRate outRate) (inRate / Z.gcd inRate outRate) (mixedOf mix numIn oc) m.
End Streams.
(** A filter reaches over 64 samples of the lower rate on either side, rounded up, or one input sample more. *)
Definition sizeOk (p q half : Z) : Prop := 64 * Z.max p q <= half * p <= 64 * Z.max p q + p.

(** The output has a sample for every position inside the clip. *)
Definition outLength (p q N L : Z) : Prop := whole p q (L - 1) < N <= whole p q L.

(** Everything that is done for sample [i] of a frame, for all of them in order; stops at the first error. *)
Fixpoint inOrder {A B} (f : A -> outcome B) (l : list A) : outcome (list B) :=
  match l with [] => Ok [] | x :: r => obind (f x) (fun y => obind (inOrder f r) (fun ys => Ok (y :: ys))) end.

(** One frame of the result: the samples of every channel, stored in order; [Err] when clipping is an error and happened. *)
Section Frame.
Context {D : Type}.
Variable store : Z -> Z -> fl -> outcome (D * bool).
Variable value : Z -> Z -> fl.         (* channel, position *)
Variables (silent : Z -> bool) (silence : D) (numOut L : Z) (overflowError : bool).
Definition storedChannel (first count oc : Z) : outcome (list D * bool) :=
  if silent oc then Ok (repeat silence (Z.to_nat count), false)
  else obind (inOrder (fun i => store (first + i) oc (value oc (first + i))) (zseq count)) (fun l => Ok (map fst l, existsb snd l)).
Definition storedFrame (n : Z) : outcome (list (list D)) :=
  obind (inOrder (storedChannel (AFS * n) (Z.min AFS (L - AFS * n))) (zseq numOut)) (fun chs => if existsb snd chs && overflowError then Err else Ok (map fst chs)).
End Frame.
