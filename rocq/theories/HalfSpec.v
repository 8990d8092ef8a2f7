(** What half and single precision numbers stand for (IEEE 754 binary16 and binary32),
    as integers: a half counts multiples of 2^-24, a float multiples of 2^-149. *)
From Coq Require Import ZArith Bool.
Open Scope Z_scope.

(** A magnitude with [w] mantissa bits: subnormal when the exponent field is zero. *)
Definition magnitude (w b : Z) : Z :=
  if b / 2 ^ w =? 0 then b mod 2 ^ w else (2 ^ w + b mod 2 ^ w) * 2 ^ (b / 2 ^ w - 1).

Definition half (h : Z) : Prop := 0 <= h < 2 ^ 16.
Definition single (b : Z) : Prop := 0 <= b < 2 ^ 32.
Definition neg16 (h : Z) : bool := 2 ^ 15 <=? h.
Definition neg32 (b : Z) : bool := 2 ^ 31 <=? b.
Definition abs16 (h : Z) : Z := h mod 2 ^ 15.
Definition abs32 (b : Z) : Z := b mod 2 ^ 31.

Definition finite16 (h : Z) : Prop := abs16 h < 31 * 2 ^ 10.
Definition inf16 (h : Z) : Prop := abs16 h = 31 * 2 ^ 10.
Definition nan16 (h : Z) : Prop := 31 * 2 ^ 10 < abs16 h.
Definition finite32 (b : Z) : Prop := abs32 b < 255 * 2 ^ 23.
Definition inf32 (b : Z) : Prop := abs32 b = 255 * 2 ^ 23.
Definition nan32 (b : Z) : Prop := 255 * 2 ^ 23 < abs32 b.

Definition value16 (h : Z) : Z := if neg16 h then - magnitude 10 (abs16 h) else magnitude 10 (abs16 h).
Definition value32 (b : Z) : Z := if neg32 b then - magnitude 23 (abs32 b) else magnitude 23 (abs32 b).

(** The two units: 2^-24 = 2^125 * 2^-149. *)
Definition unit : Z := 2 ^ 125.
(** 65520 = (65504 + 65536) / 2, the first magnitude that is nearer to 2^16 than to the
    largest half. *)
Definition overflow : Z := 65520 * 2 ^ 149.
