(** C63: conversion between half and single precision. *)
From Coq Require Import ZArith List Lia Bool.
From Verif Require Import HalfSpec Half HalfLemmas.
Import ListNotations.
Open Scope Z_scope.

(** Widening keeps the number exactly, the sign, infinities and NaNs. *)
Theorem C63_widen : forall h, half h -> single (halfToFloat h) /\ neg32 (halfToFloat h) = neg16 h /\
  (finite16 h -> finite32 (halfToFloat h) /\ value32 (halfToFloat h) = value16 h * unit) /\
  (inf16 h -> inf32 (halfToFloat h)) /\ (nan16 h -> nan32 (halfToFloat h)).
Proof. exact half_widen. Qed.
Print Assumptions C63_widen.

Theorem C63_round_trip : forall h, half h -> ~ nan16 h -> floatToHalf (halfToFloat h) = h.
Proof. exact half_round_trip. Qed.
Print Assumptions C63_round_trip.

Theorem C63_nan : forall b, single b -> nan32 b -> nan16 (floatToHalf b) /\ neg16 (floatToHalf b) = neg32 b.
Proof. exact half_nan. Qed.
Print Assumptions C63_nan.

Theorem C63_inf : forall b, single b -> inf32 b -> inf16 (floatToHalf b) /\ neg16 (floatToHalf b) = neg32 b.
Proof. exact half_inf. Qed.
Print Assumptions C63_inf.

(** Narrowing: no half is nearer than the result, and the result is infinite exactly from
    65520 on. *)
Theorem C63_nearest : forall b, single b -> finite32 b -> let h := floatToHalf b in
  half h /\ ~ nan16 h /\ neg16 h = neg32 b /\ (inf16 h <-> overflow <= Z.abs (value32 b)) /\
  (finite16 h -> forall g, half g -> finite16 g -> Z.abs (value16 h * unit - value32 b) <= Z.abs (value16 g * unit - value32 b)).
Proof. exact half_finite. Qed.
Print Assumptions C63_nearest.

(** Ties go away from zero. *)
Theorem C63_ties_away : forall b k, single b -> finite32 b -> 0 <= k < 31 * 2 ^ 10 ->
  2 * Z.abs (value32 b) = (magnitude 10 k + magnitude 10 (k + 1)) * unit -> abs16 (floatToHalf b) = k + 1.
Proof. exact half_ties. Qed.
Print Assumptions C63_ties_away.

(** So it is not "nearest, ties to even", as the comments of the kernels say and as the
    compiler's own conversion does: 1 + 2^-11 lies in the middle of 0x3C00 and 0x3C01 and
    becomes the odd one. *)
Theorem C63_ties_even_refuted : exists b, single b /\ finite32 b /\
  2 * value32 b = (value16 0x3C00 + value16 0x3C01) * unit /\ floatToHalf b = 0x3C01 /\ Z.even 0x3C01 = false.
Proof. exists 0x3F801000. repeat split; vm_compute; congruence. Qed.
Print Assumptions C63_ties_even_refuted.

Theorem C63_isInf_partial : forall v, half v -> (isInfHalf v = true <-> ~ finite16 v).
Proof. exact isInf_finite. Qed.
Print Assumptions C63_isInf_partial.

(** A NaN is reported as infinite. *)
Theorem C63_isInf_refuted : exists v, half v /\ nan16 v /\ ~ inf16 v /\ isInfHalf v = true.
Proof. exists 0x7E00. repeat split; vm_compute; congruence. Qed.
Print Assumptions C63_isInf_refuted.

Example C63_ex : map halfToFloat [0x3C00; 0x0001; 0x8001; 0x7C00; 0x7BFF; 0] = [0x3F800000; 0x33800000; 0xB3800000; 0x7F800000; 0x477FE000; 0] /\
  map floatToHalf [0x3F800000; 0x33000000; 0x32FFFFFF; 0x477FEFFF; 0x477FF000; 0x7F800001; 0x80000000] = [0x3C00; 1; 0; 0x7BFF; 0x7C00; 0x7E00; 0x8000].
Proof. split; vm_compute; reflexivity. Qed.
