(** Model of the conversion of float arguments to integers in src/core/genericfilters.cpp. *)
From Coq Require Import ZArith List Lia Bool.
From Coq Require Import SpecFloat.
From Verif Require Import Common Soft.
Open Scope Z_scope.

(** floatToInt64S, genericfilters.cpp:875-882; 2^63 is the float nearest to the limits. *)
Definition floatToInt64S (x : fl) : outcome Z :=
  if SFltb (of32 1 63) x then Ok INT64_MAX
  else if SFltb x (of32 (-1) 63) then Ok INT64_MIN
  else llround x.

