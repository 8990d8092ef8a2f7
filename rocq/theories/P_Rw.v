(** C48: rewriting expressions. *)
From Coq Require Import ZArith QArith Qreals List Bool Reals.
From Verif Require Import RwSyntax RwSpec Rw RwSound RwSound2 RwRat RwReal RwFacts.
Import ListNotations.
Open Scope R_scope.

(** Constant folding and the other local rules, combining powers, rewriting comparisons, strength reduction and fusion keep every value. *)
Theorem C48_local : forall A den (E : exact A den) rho t, refines A den false rho t (fst (localPass t)).
Proof. exact (@local_sound). Qed.
Print Assumptions C48_local.
Theorem C48_combine : forall A den (E : exact A den) rho t, refines A den false rho t (fst (comb t)).
Proof. exact combine_ok. Qed.
Print Assumptions C48_combine.
Theorem C48_comparison : forall A den (E : exact A den) rho t, refines A den false rho t (fst (cmpPass false t)).
Proof. exact (@cmp_sound). Qed.
Print Assumptions C48_comparison.
Theorem C48_strength : forall A den (E : exact A den) rho t pa, refines A den false rho t (fst (strength pa t)).
Proof. exact (@strength_sound). Qed.
Print Assumptions C48_strength.
Theorem C48_fusion : forall A den (E : exact A den) rho t, refines A den false rho t (fst (fusionPass t)).
Proof. exact fusion_ok. Qed.
Print Assumptions C48_fusion.
(** So does the second of the two loops as a whole. *)
Theorem C48_second_loop : forall A den (E : exact A den) rho n t t' m, loop second n t = Some (t', m) -> refines A den false rho t t'.
Proof. exact second_ok. Qed.
Print Assumptions C48_second_loop.
(** There is such an arithmetic. *)
Theorem C48_reals : exact realA (fun x => x).
Proof. exact real_exact. Qed.
Print Assumptions C48_reals.

(** The algebraic pass, with the constant of a sum kept when nothing else is left of it, keeps the values of covered expressions. *)
Theorem C48_algebraic_partial : forall A den (E : exact A den) rho t, covered A den false rho Free t -> refines A den false rho t (fst (algPass true t)).
Proof. exact algebraic_ok. Qed.
Print Assumptions C48_algebraic_partial.
(** So does the whole optimiser, and the one of the program where the two agree. *)
Theorem C48_corrected_partial : forall A den (E : exact A den) rho t t', covered A den false rho Free t -> optimise true t = Some t' -> refines A den false rho t t'.
Proof. exact corrected_ok. Qed.
Print Assumptions C48_corrected_partial.
Theorem C48_program_partial : forall A den (E : exact A den) rho t t', covered A den false rho Free t -> optimise true t = optimise false t -> optimise false t = Some t' ->
  refines A den false rho t t'.
Proof. exact program_ok. Qed.
Print Assumptions C48_program_partial.
(** Expressions without roots whose exponents are integers are covered for all samples; roots and powers of sums, products and quotients for samples and
    constants that are not negative. *)
Theorem C48_polynomial_covered : forall A (den : K A -> R) rho t, polynomial den t -> covered A den false rho Free t.
Proof. exact polynomial_covered. Qed.
Print Assumptions C48_polynomial_covered.
Theorem C48_monotone_covered : forall A (den : K A -> R) rho t, (forall i, 0 <= rho i) -> monotone den t -> covered A den false rho NonNeg t.
Proof. exact monotone_covered. Qed.
Print Assumptions C48_monotone_covered.
(* y x - y y 0 = + / 255 * 50 - y 256 + 512 / 0.5 + * , the first of test/expr_compiler/reference_output.txt *)
Definition reference1 : ratEx :=
  @Bin rat bMul (@Bin rat bSub (@Bin rat bMul (@Bin rat bDiv (@Bin rat bSub Y X) (@Bin rat bAdd Y (@Cmp rat cEQ Y (num 0)))) (num 255)) (num 50))
    (@Bin rat bAdd (@Bin rat bDiv (@Bin rat bAdd Y (num 256)) (num 512)) (@Const rat (1 # 2))).
Definition result1 : ratEx :=
  @Bin rat bMul (@Bin rat bSub (@Bin rat bDiv (@Bin rat bMul (@Bin rat bSub Y X) (num 255)) (@Bin rat bAdd (@Cmp rat cEQ Y (num 0)) Y)) (num 50))
    (@Bin rat bAdd (@Fma rat fMADD (@Const rat (1 # 2)) Y (@Const rat (1 # 512))) (@Const rat (1 # 2))).
Example C48_reference1 : optimise false reference1 = Some result1 /\ optimise true reference1 = Some result1 /\ @polynomial rat Q2R reference1.
Proof. split; [apply gives_ok; vm_compute; reflexivity |]. split; [apply gives_ok; vm_compute; reflexivity |]. cbn. auto 10. Qed.
(* y x - abs 1 + 1.5 pow 1 - *)
Definition reference2 : ratEx :=
  @Bin rat bSub (@Bin rat bPow (@Bin rat bAdd (@Un rat uAbs (@Bin rat bSub Y X)) (num 1)) (@Const rat (3 # 2))) (num 1).
Definition cube (t : ratEx) : ratEx := @Bin rat bMul (@Bin rat bMul t t) t.
Definition result2 : ratEx := @Bin rat bSub (@Un rat uSqrt (cube (@Bin rat bAdd (@Un rat uAbs (@Bin rat bSub Y X)) (num 1)))) (num 1).
Example C48_reference2 : optimise false reference2 = Some result2 /\ optimise true reference2 = Some result2 /\ forall rho, covered rat Q2R false rho Free reference2.
Proof.
  split; [apply gives_ok; vm_compute; reflexivity |]. split; [apply gives_ok; vm_compute; reflexivity |]. intros rho. cbn [covered reference2 below inner]. split; [discriminate |]. split; [| exact I].
  left. split; [| exact I]. split; [split; [discriminate | split; exact I] |]. unfold num. cbn. unfold Q2R. cbn. rewrite Rinv_1, Rmult_1_r. apply Rle_0_1.
Qed.

(** The program loses the constant of a sum of which nothing else is left ... *)
Theorem C48_lost_constant_refuted : changes false false lostConstant.
Proof. exact lost_constant. Qed.
Print Assumptions C48_lost_constant_refuted.
(** ... which makes x 2 pow x * and x sqrt x * one. *)
Theorem C48_power_refuted : changes false false squareTimes /\ changes false false sqrtTimes.
Proof. exact (conj square_times sqrt_times). Qed.
Print Assumptions C48_power_refuted.
(** Roots of products are taken apart although the factors may be negative. *)
Theorem C48_sign_refuted : forall fix_, changes fix_ false lostSign.
Proof. exact lost_sign. Qed.
Print Assumptions C48_sign_refuted.
Theorem C48_domain_refuted : forall fix_, exists t' rho v, optimise fix_ lostDomain = Some t' /\ eval rat Q2R false rho lostDomain = Some v /\ eval rat Q2R false rho t' = None.
Proof. exact lost_domain. Qed.
Print Assumptions C48_domain_refuted.
(** 0 x pow becomes 0, also where x is 0, and 0 to the power 0 is 1 for the functions of the mathematics library. *)
Theorem C48_zero_power_refuted : forall fix_, changes fix_ true zeroPower.
Proof. exact zero_power. Qed.
Print Assumptions C48_zero_power_refuted.
