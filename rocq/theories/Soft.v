(** IEEE 754 arithmetic as the C++ code uses it: binary32 ("float") and binary64 ("double")
    values are [spec_float]s and the operations those of the standard library specification,
    rounding to nearest, ties to even.  Fused multiply-add contraction is not modelled. *)
From Coq Require Import ZArith List Lia Bool.
From Coq Require Import SpecFloat.
From Verif Require Import Common.
Import ListNotations.
Open Scope Z_scope.

Definition fl := spec_float.

Definition mul32 : fl -> fl -> fl := SFmul 24 128.
Definition add32 : fl -> fl -> fl := SFadd 24 128.
Definition sub32 : fl -> fl -> fl := SFsub 24 128.
Definition div32 : fl -> fl -> fl := SFdiv 24 128.
Definition mul64 : fl -> fl -> fl := SFmul 53 1024.
Definition add64 : fl -> fl -> fl := SFadd 53 1024.
Definition sub64 : fl -> fl -> fl := SFsub 53 1024.
Definition div64 : fl -> fl -> fl := SFdiv 53 1024.

(** Conversions of integers: m * 2^e rounded. *)
Definition of32 (m e : Z) : fl := binary_normalize 24 128 m e false.
Definition of64 (m e : Z) : fl := binary_normalize 53 1024 m e false.
(** static_cast<float>(double) *)
Definition to32 (x : fl) : fl :=
  match x with S754_finite s m e => binary_round 24 128 s m e | _ => x end.

(** std::min and std::max return their first argument when the comparison is false. *)
Definition fmin (x y : fl) : fl := if SFltb y x then y else x.
Definition fmax (x y : fl) : fl := if SFltb x y then y else x.

Definition isFin (x : fl) : bool := match x with S754_zero _ | S754_finite _ _ _ => true | _ => false end.
Definition isNan (x : fl) : bool := match x with S754_nan => true | _ => false end.

(** Magnitude of m * 2^e rounded to an integer: to nearest, ties to even; towards zero;
    to nearest, ties away from zero. *)
Definition mag_rne (m : positive) (e : Z) : Z :=
  if 0 <=? e then Z.pos m * 2 ^ e
  else let d := 2 ^ (- e) in
       let q := Z.pos m / d in let r := Z.pos m mod d in
       if 2 * r <? d then q else if d <? 2 * r then q + 1 else if Z.even q then q else q + 1.
Definition mag_trunc (m : positive) (e : Z) : Z :=
  if 0 <=? e then Z.pos m * 2 ^ e else Z.pos m / 2 ^ (- e).
Definition mag_away (m : positive) (e : Z) : Z :=
  if 0 <=? e then Z.pos m * 2 ^ e
  else let d := 2 ^ (- e) in (2 * Z.pos m + d) / (2 * d).

Definition signed (s : bool) (v : Z) : Z := if s then - v else v.

(** lrint: an unspecified value for NaN and outside the range, modelled as UB. *)
Definition lrint (x : fl) : outcome Z :=
  match x with
  | S754_zero _ => Ok 0
  | S754_finite s m e => let v := signed s (mag_rne m e) in if in_int64b v then Ok v else UB
  | _ => UB
  end.
(** static_cast<int64_t>: truncation, UB when it does not fit. *)
Definition truncInt64 (x : fl) : outcome Z :=
  match x with
  | S754_zero _ => Ok 0
  | S754_finite s m e => let v := signed s (mag_trunc m e) in if in_int64b v then Ok v else UB
  | _ => UB
  end.
(** llround *)
Definition llround (x : fl) : outcome Z :=
  match x with
  | S754_zero _ => Ok 0
  | S754_finite s m e => let v := signed s (mag_away m e) in if in_int64b v then Ok v else UB
  | _ => UB
  end.
