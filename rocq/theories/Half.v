(** Conversion between half and single precision: src/core/float16_helper.h.
    Floats and halves are their bit patterns.  Only the portable branch is modelled (the one
    compiled for x86 without F16C); the other branch is the compiler's own conversion. *)
From Coq Require Import ZArith Bool.
From Coq Require Import SpecFloat.
From Verif Require Import Common Soft.
Open Scope Z_scope.

(** std::bit_cast<float> of a non-negative pattern. *)
Definition ofBits (b : Z) : fl :=
  let E := b / 2 ^ 23 in
  let M := b mod 2 ^ 23 in
  if E =? 255 then (if M =? 0 then S754_infinity false else S754_nan)
  else if E =? 0 then (match M with Z.pos p => S754_finite false p (-149) | _ => S754_zero false end)
  else S754_finite false (Z.to_pos (2 ^ 23 + M)) (E - 150).

(** std::bit_cast<uint32_t>; a NaN made by arithmetic has an unspecified payload. *)
Definition toBits (x : fl) : Z :=
  match x with
  | S754_zero s => if s then 2 ^ 31 else 0
  | S754_infinity s => (if s then 2 ^ 31 else 0) + 255 * 2 ^ 23
  | S754_nan => 511 * 2 ^ 22
  | S754_finite s m e =>
      (if s then 2 ^ 31 else 0) + (if Z.pos m <? 2 ^ 23 then Z.pos m else (e + 150) * 2 ^ 23 + (Z.pos m - 2 ^ 23))
  end.

(** lines 40-62 *)
Definition halfToFloat (h : Z) : Z :=
  let magic := Z.shiftl 113 23 in
  let shifted_exp := Z.shiftl 0x7C00 13 in
  let f := Z.shiftl (Z.land h 0x7FFF) 13 in
  let exp := Z.land f shifted_exp in
  let f := wrapu32 (f + Z.shiftl 112 23) in
  let f :=
    if exp =? shifted_exp then wrapu32 (f + Z.shiftl 112 23)
    else if exp =? 0 then
      let f := wrapu32 (f + Z.shiftl 1 23) in
      toBits (sub32 (ofBits f) (ofBits magic))
    else f in
  Z.lor f (Z.shiftl (Z.land h 0x8000) 16).

(** lines 64-94 *)
Definition floatToHalf (x : Z) : Z :=
  let magic := ofBits (Z.shiftl 15 23) in
  let inf := Z.shiftl 255 23 in
  let f16inf := Z.shiftl 31 23 in
  let sign_mask := 0x80000000 in
  let round_mask := wrapu32 (Z.lnot 0x0FFF) in
  let sign := Z.land x sign_mask in
  let f := Z.lxor x sign in
  let ret :=
    if f >=? inf then (if f >? inf then 0x7E00 else 0x7C00)
    else
      let f := Z.land f round_mask in
      let f := toBits (mul32 (ofBits f) magic) in
      let f := wrapu32 (f - round_mask) in
      let f := if f >? f16inf then f16inf else f in
      wrapu16 (Z.shiftr f 13) in
  Z.lor ret (wrapu16 (Z.shiftr sign 16)).

(** lines 96-100 *)
Definition isInfHalf (v : Z) : bool := Z.land v 0x7C00 =? 0x7C00.
