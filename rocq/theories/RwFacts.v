(** Expressions whose value the optimiser changes, and the theorems in the form of the property. *)
From Coq Require Import ZArith QArith Qreals List Bool Reals Lra.
From Verif Require Import RwSyntax RwSpec RwPow Rw RwSound RwSound2 RwAlg RwDriver RwRat RwReal.
Import ListNotations.
Open Scope R_scope.

Notation evQ := (eval rat Q2R false).
Definition at1 (x : R) : nat -> R := fun _ => x.
Definition at2 (x y : R) : nat -> R := fun i => match i with O => x | _ => y end.
Lemma q2r_Z : forall z, Q2R (inject_Z z) = IZR z. Proof. intros z. unfold Q2R. cbn. field. Qed.
Definition changes (fix_ : bool) (z : bool) (t : ratEx) : Prop :=
  exists t' rho v v', optimise fix_ t = Some t' /\ eval rat Q2R z rho t = Some v /\ eval rat Q2R z rho t' = Some v' /\ v <> v'.

Definition gives (fix_ : bool) (t t' : ratEx) : bool := match optimise fix_ t with Some u => exeq u t' | None => false end.
Lemma gives_ok : forall fix_ t t', gives fix_ t t' = true -> optimise fix_ t = Some t'.
Proof. intros fix_ t t'. unfold gives. destruct (optimise fix_ t) as [u |]; [| discriminate]. intros H. apply exeq_true in H. subst u. reflexivity. Qed.

(** x x - 5 + *)
Definition lostConstant : ratEx := @Bin rat bAdd (@Bin rat bSub X X) (num 5).
Lemma lost_constant : changes false false lostConstant.
Proof.
  exists (num 0), (at1 0), 5, 0. split; [apply gives_ok; vm_compute; reflexivity |]. unfold lostConstant, num, X. cbn [eval bind2 bsem]. rewrite !q2r_Z. unfold at1.
  split; [f_equal; ring |]. split; [reflexivity | lra].
Qed.
(** x 2 pow x * *)
Definition squareTimes : ratEx := @Bin rat bMul (@Bin rat bPow X (num 2)) X.
Lemma rpow_two : rpow false 2 2 = Some 4.
Proof. change 2 with (IZR 2) at 2. rewrite rpow_int by lra. f_equal. unfold powerRZ. change (Pos.to_nat 2) with 2%nat. ring. Qed.
Lemma square_times : changes false false squareTimes.
Proof.
  exists (num 1), (at1 2), 8, 1. split; [apply gives_ok; vm_compute; reflexivity |]. unfold squareTimes, num, X. cbn [eval bind2 bsem]. rewrite !q2r_Z. unfold at1.
  rewrite rpow_two. split; [cbn [bind2 bsem]; f_equal; ring |]. split; [reflexivity | lra].
Qed.
(** x sqrt x * *)
Definition sqrtTimes : ratEx := @Bin rat bMul (@Un rat uSqrt X) X.
Lemma sqrt_times : changes false false sqrtTimes.
Proof.
  exists (num 1), (at1 4), 8, 1. split; [apply gives_ok; vm_compute; reflexivity |]. unfold sqrtTimes, num, X. cbn [eval bind2 bsem usem]. rewrite !q2r_Z. unfold at1.
  destruct (Rle_dec 0 4); [| lra]. split; [cbn [bind2 bsem]; f_equal; replace 4 with (2 * 2) by ring; rewrite sqrt_square by lra; ring |]. split; [reflexivity | lra].
Qed.
(** y x x * sqrt *, also with the corrected sum *)
Definition lostSign : ratEx := @Bin rat bMul Y (@Un rat uSqrt (@Bin rat bMul X X)).
Lemma lost_sign : forall fix_, changes fix_ false lostSign.
Proof.
  intros fix_. exists (@Bin rat bMul X Y), (at2 (-1) 1), 1, (-1). split; [destruct fix_; apply gives_ok; vm_compute; reflexivity |]. unfold lostSign, X, Y. cbn [eval bind2 bsem usem at2].
  replace (-1 * -1) with 1 by ring. destruct (Rle_dec 0 1); [| lra]. rewrite sqrt_1. split; [cbn [bind2 bsem]; f_equal; ring |]. split; [f_equal; ring | lra].
Qed.
(** z x y * sqrt *: nothing is left where both factors are negative *)
Definition lostDomain : ratEx := @Bin rat bMul W (@Un rat uSqrt (@Bin rat bMul X Y)).
Lemma lost_domain : forall fix_, exists t' rho v, optimise fix_ lostDomain = Some t' /\ evQ rho lostDomain = Some v /\ evQ rho t' = None.
Proof.
  intros fix_. exists (@Bin rat bMul (@Bin rat bMul (@Un rat uSqrt X) (@Un rat uSqrt Y)) W), (at1 (-1)), (-1).
  split; [destruct fix_; apply gives_ok; vm_compute; reflexivity |]. unfold lostDomain, X, Y, W. cbn [eval bind2 bsem usem]. unfold at1.
  replace (-1 * -1) with 1 by ring. destruct (Rle_dec 0 1); [| lra]. rewrite sqrt_1. split; [cbn [bind2 bsem]; f_equal; ring |].
  destruct (Rle_dec 0 (-1)); [lra | reflexivity].
Qed.
(** 0 x pow, where 0 to the power 0 is 1 *)
Definition zeroPower : ratEx := @Bin rat bPow (num 0) X.
Lemma zero_power : forall fix_, changes fix_ true zeroPower.
Proof.
  intros fix_. exists (num 0), (at1 0), 1, 0. split; [destruct fix_; apply gives_ok; vm_compute; reflexivity |]. unfold zeroPower, num, X. cbn [eval bind2 bsem]. rewrite !q2r_Z. unfold at1.
  unfold rpow. destruct (Rlt_dec 0 0); [lra |]. destruct (Req_EM_T 0 0); [| lra]. split; [reflexivity |]. split; [reflexivity | lra].
Qed.

(** Where the program agrees with the corrected optimiser. *)
Theorem program_ok : forall A den (E : exact A den) rho t t', covered A den false rho Free t -> optimise true t = optimise false t -> optimise false t = Some t' ->
  refines A den false rho t t'.
Proof. intros A den E rho t t' C Q H. rewrite <- Q in H. exact (optimise_ok E rho t t' C H). Qed.
Theorem corrected_ok : forall A den (E : exact A den) rho t t', covered A den false rho Free t -> optimise true t = Some t' -> refines A den false rho t t'.
Proof. intros A den E rho t t' C H. exact (optimise_ok E rho t t' C H). Qed.
Theorem algebraic_ok : forall A den (E : exact A den) rho t, covered A den false rho Free t -> refines A den false rho t (fst (algPass true t)).
Proof. intros A den E rho t C v V. unfold algPass. apply (alg_ok E rho _ t Free false false false v C V). Qed.
Theorem combine_ok : forall A den (E : exact A den) rho t, refines A den false rho t (fst (comb t)).
Proof. intros A den E rho t. apply (comb_sound E rho t). Qed.
Theorem fusion_ok : forall A den (E : exact A den) rho t, refines A den false rho t (fst (fusionPass t)).
Proof. intros A den E rho t. apply (fusion_sound E). Qed.
Theorem second_ok : forall A den (E : exact A den) rho n t t' m, loop second n t = Some (t', m) -> refines A den false rho t t'.
Proof. intros A den E rho n t t' m H. exact (loop_second E rho n t t' m H). Qed.
(** Sums and products of clips and constants with integer powers are covered whatever the samples are ... *)
Fixpoint polynomial {A} (den : K A -> R) (t : ex A) : Prop :=
  match t with
  | Const _ => True | Load _ => True
  | Un u a => match u with uSqrt => False | _ => polynomial den a end
  | Bin b a c => match b with bPow => polynomial den a /\ expo A den c | _ => polynomial den a /\ polynomial den c end
  | Cmp _ a b => polynomial den a /\ polynomial den b
  | Fma _ a b c => polynomial den a /\ polynomial den b /\ polynomial den c
  | Tern c a b => polynomial den c /\ polynomial den a /\ polynomial den b
  end.
Lemma polynomial_any : forall A (den : K A -> R) rho t, polynomial den t -> covered A den false rho Any t.
Proof.
  intros A den rho. assert (S1 : signed Any) by discriminate.
  induction t as [k | i | u a IHa | b a IHa c IHc | o a IHa b IHb | f a IHa b IHb c IHc | c IHc a IHa b IHb]; cbn [polynomial covered]; intros H.
  - exact I.
  - exact I.
  - destruct u; try contradiction; specialize (IHa H); auto using any_free.
  - destruct b; cbn [inner outer below]; destruct H as [H1 H2]; specialize (IHa H1); try (specialize (IHc H2)); auto using any_free.
  - destruct H; auto.
  - destruct H as [? [? ?]]; auto.
  - destruct H as [H1 [H2 H3]]. split; [exact S1 |]. split; [apply any_free; auto |]. destruct (eval A den false rho c) as [x |]; [| exact I]. destruct (holds x); auto.
Qed.
Theorem polynomial_covered : forall A (den : K A -> R) rho t, polynomial den t -> covered A den false rho Free t.
Proof. intros A den rho t H. apply any_free, polynomial_any, H. Qed.
(** ... and sums, products, quotients, roots and powers of samples and constants that are not negative are. *)
Fixpoint monotone {A} (den : K A -> R) (t : ex A) : Prop :=
  match t with
  | Const k => 0 <= den k | Load _ => True
  | Un u a => match u with uSqrt => monotone den a | uAbs => monotone den a | uExp => monotone den a | uNot => monotone den a | _ => False end
  | Bin b a c => match b with bSub => False | bPow => monotone den a /\ exists k, c = Const k | _ => monotone den a /\ monotone den c end
  | Cmp _ a b => monotone den a /\ monotone den b
  | _ => False
  end.
Theorem monotone_covered : forall A (den : K A -> R) rho t, (forall i, 0 <= rho i) -> monotone den t -> covered A den false rho NonNeg t.
Proof.
  intros A den rho t P. induction t as [k | i | u a IHa | b a IHa c IHc | o a IHa b IHb | f a IHa b IHb c IHc | c IHc a IHa b IHb]; cbn [monotone covered]; intros H; try contradiction.
  - exact H.
  - apply P.
  - destruct u; try contradiction; specialize (IHa H); cbn [below]; auto using any_free, non_any.
  - destruct b; cbn [inner outer below]; try contradiction; destruct H as [H1 H2]; specialize (IHa H1); try (specialize (IHc H2)); auto using any_free, non_any.
    destruct H2 as [k ->]. left. split; [exact IHa | exact I].
  - destruct H; auto using non_any.
Qed.
