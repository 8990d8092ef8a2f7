(** Property C13: rational helpers compute exact reduced fractions. *)
From Coq Require Import ZArith Lia.
From Verif Require Import Common Rational.
Open Scope Z_scope.

(** muldivRational: exact value (cross-multiplied), lowest terms, sign of the
    denominator kept, whenever both products fit (and avoid INT64_MIN). *)
Theorem C13_muldiv_exact_reduced : forall num den mul div,
  den <> 0 -> div <> 0 ->
  INT64_MIN < num * mul <= INT64_MAX -> INT64_MIN < den * div <= INT64_MAX ->
  exists n d, muldivRational num den mul div = Ok (n, d) /\
    n * (den * div) = (num * mul) * d /\
    Z.gcd n d = 1 /\ Z.sgn d = Z.sgn (den * div) /\ d <> 0.
Proof. exact muldivRational_spec. Qed.
Print Assumptions C13_muldiv_exact_reduced.

Example C13_muldiv_example :
  (INT64_MIN < 30000 * 5 <= INT64_MAX /\ INT64_MIN < 1001 * 10 <= INT64_MAX) /\
  muldivRational 30000 1001 5 10 = Ok (15000, 1001).
Proof. unfold INT64_MIN, INT64_MAX. split; [lia|reflexivity]. Qed.

(** An invalid rational (zero denominator) is left alone. *)
Theorem C13_muldiv_invalid_untouched : forall num mul div,
  muldivRational num 0 mul div = Ok (num, 0).
Proof. exact muldivRational_invalid. Qed.
Print Assumptions C13_muldiv_invalid_untouched.

(** addRational with different denominators: exact sum in lowest terms. *)
Theorem C13_add_exact_reduced_partial : forall num den addnum addden,
  den <> 0 -> addden <> 0 -> den <> addden ->
  INT64_MIN < num * addden <= INT64_MAX -> INT64_MIN < addnum * den <= INT64_MAX ->
  INT64_MIN < den * addden <= INT64_MAX ->
  INT64_MIN < num * addden + addnum * den <= INT64_MAX ->
  exists n d, addRational num den addnum addden = Ok (n, d) /\
    n * (den * addden) = (num * addden + addnum * den) * d /\
    Z.gcd n d = 1 /\ d <> 0.
Proof. exact addRational_spec_neq. Qed.
Print Assumptions C13_add_exact_reduced_partial.

Example C13_add_example : addRational 1 4 1 6 = Ok (5, 12).
Proof. reflexivity. Qed.

(** addRational with equal denominators: the sum is exact ... *)
Theorem C13_add_equal_den_exact : forall num den addnum,
  den <> 0 -> in_int64 (num + addnum) ->
  addRational num den addnum den = Ok (num + addnum, den).
Proof. exact addRational_spec_eq. Qed.
Print Assumptions C13_add_equal_den_exact.

(** ... but not in lowest terms, although the header promises "add two rational
    numbers and reduces the result": 1/4 + 1/4 yields 2/4. *)
Theorem C13_add_reduced_refuted : exists num den addnum addden n d,
  den <> 0 /\ addden <> 0 /\ Z.gcd num den = 1 /\ Z.gcd addnum addden = 1 /\
  addRational num den addnum addden = Ok (n, d) /\ Z.gcd n d <> 1.
Proof. exists 1, 4, 1, 4, 2, 4. vm_compute. repeat split; congruence. Qed.
Print Assumptions C13_add_reduced_refuted.
