(** The algebraic pass keeps the values of covered expressions. *)
From Coq Require Import ZArith List Bool Reals Lra Lia Permutation.
From Verif Require Import RwSyntax RwSpec RwPow Rw RwSound RwSound2.
Import ListNotations.
Open Scope R_scope.

Section Alg.
Context {A : arith} {den : K A -> R}.
Variable E : exact A den.
Variable rho : nat -> R.
Notation ex := (ex A).
Notation ev := (eval A den false rho).
Notation refs := (refines A den false rho).
Notation adm := (covered A den false rho).
Notation xpo := (expo A den).

(** What is asked of exponents of factors: integers unless the base is not negative. *)
Definition inE (d : mode) (x : R) : Prop := match d with NonNeg => True | _ => exists n, x = IZR n end.
Lemma inD_mul : forall d x y, inM d x -> inM d y -> inM d (x * y).
Proof. intros [] x y; cbn; auto. apply Rmult_le_pos. Qed.
Lemma inD_add : forall d x y, inM d x -> inM d y -> inM d (x + y).
Proof. intros [] x y; cbn; auto. lra. Qed.
Lemma rpow_nonneg : forall x e w, 0 <= x -> rpow false x e = Some w -> 0 <= w.
Proof.
  intros x e w P H. destruct (rpow_cases _ _ _ H) as [[Q ->] | [[_ [_ ->]] | [N _]]]; [| lra | lra]. unfold Rpower. left. apply exp_pos.
Qed.
Lemma inD_rpow : forall d x e w, inM d x -> rpow false x e = Some w -> inM d w.
Proof. intros [] x e w; cbn; auto. apply rpow_nonneg. Qed.
Lemma inD_inv : forall d x, x <> 0 -> inM d x -> inM d (/ x).
Proof. intros [] x N; cbn; auto. intros P. left. apply Rinv_0_lt_compat. lra. Qed.
Lemma inD_1 : forall d, inM d 1. Proof. intros []; cbn; auto. lra. Qed.
Lemma inD_0 : forall d, inM d 0. Proof. intros []; cbn; auto. lra. Qed.
Lemma inE_mul : forall d x y, inE d x -> inE d y -> inE d (x * y).
Proof. intros [] x y; cbn; auto; intros [n ->] [m ->]; exists (n * m)%Z; rewrite mult_IZR; reflexivity. Qed.
Lemma inE_add : forall d x y, inE d x -> inE d y -> inE d (x + y).
Proof. intros [] x y; cbn; auto; intros [n ->] [m ->]; exists (n + m)%Z; rewrite plus_IZR; reflexivity. Qed.
Lemma inE_opp : forall d x, inE d x -> inE d (- x).
Proof. intros [] x; cbn; auto; intros [n ->]; exists (- n)%Z; rewrite opp_IZR; reflexivity. Qed.
Lemma inE_int : forall d n, inE d (IZR n). Proof. intros [] n; cbn; eauto. Qed.
Lemma rpow_prodN : forall a b e v, 0 <= a -> 0 <= b -> rpow false (a * b) e = Some v ->
  exists x y, rpow false a e = Some x /\ rpow false b e = Some y /\ v = x * y.
Proof.
  intros a b e v [PA | <-] [PB | <-] H; [apply rpow_prodP; assumption | | |].
  - rewrite Rmult_0_r in H. destruct (rpow_cases _ _ _ H) as [[Q _] | [[_ [Q ->]] | [Q _]]]; [lra | | lra].
    rewrite (rpow_pos false a e PA), rpow_zero by exact Q. do 2 eexists. repeat split. ring.
  - rewrite Rmult_0_l in H. destruct (rpow_cases _ _ _ H) as [[Q _] | [[_ [Q ->]] | [Q _]]]; [lra | | lra].
    rewrite (rpow_pos false b e PB), rpow_zero by exact Q. do 2 eexists. repeat split. ring.
  - rewrite Rmult_0_l in H. destruct (rpow_cases _ _ _ H) as [[Q _] | [[_ [Q ->]] | [Q _]]]; [lra | | lra].
    rewrite rpow_zero by exact Q. do 2 eexists. repeat split. ring.
Qed.
Lemma law_mul : forall d a b e v, inM d a -> inM d b -> inE d e -> rpow false (a * b) e = Some v ->
  exists x y, rpow false a e = Some x /\ rpow false b e = Some y /\ v = x * y.
Proof. intros [] a b e v; cbn; intros HA HB HE; [destruct HE as [n ->]; apply rpow_prodZ | destruct HE as [n ->]; apply rpow_prodZ | apply rpow_prodN; assumption]. Qed.
Lemma law_pow : forall d a c u e w, inM d a -> inE d e -> rpow false a c = Some u -> rpow false u e = Some w -> rpow false a (e * c) = Some w.
Proof.
  intros d a c u e w HA HE H1 H2. rewrite Rmult_comm. eapply rpow_mul_gen; [exact H1 | exact H2 |].
  destruct d; cbn in HA, HE; [right; left; exact HE | right; left; exact HE | left; exact HA].
Qed.

(** The kinds of places are ordered. *)
Lemma xpo_any : forall t, xpo t -> adm Any t.
Proof.
  induction t as [k | i | u a IHa | b a IHa c IHc | o a IHa b IHb | f a IHa b IHb c IHc | c IHc a IHa b IHb]; cbn [expo covered]; try contradiction; [intros; exact I |].
  destruct b; try contradiction. intros [H1 H2]. auto.
Qed.
Lemma mono : forall t, (adm NonNeg t -> adm Any t) /\ (adm Any t -> adm Free t).
Proof.
  assert (S1 : signed Any) by discriminate. assert (S2 : signed Free) by discriminate.
  induction t as [k | i | u a IHa | b a IHa c IHc | o a IHa b IHb | f a IHa b IHb c IHc | c IHc a IHa b IHb]; cbn [covered].
  - cbn. auto.
  - cbn. auto.
  - destruct u; cbn [below]; intuition auto.
  - destruct b; cbn [inner outer below]; pose proof (xpo_any c); intuition (auto; discriminate).
  - auto.
  - intuition auto.
  - split; [intros [C _]; contradiction C; reflexivity |]. intros [_ [H1 H2]]. split; [exact S2 |]. split; [exact H1 |].
    destruct (ev c) as [x |]; [| exact I]. destruct (holds x); [apply IHa, H2 | apply IHb, H2].
Qed.
Lemma any_free : forall t, adm Any t -> adm Free t. Proof. intros t. apply mono. Qed.
Lemma non_any : forall t, adm NonNeg t -> adm Any t. Proof. intros t. apply mono. Qed.
Lemma inner_le : forall m t, adm (inner m) t -> adm m t. Proof. intros [] t H; cbn in H; [apply any_free, H | exact H | exact H]. Qed.
Lemma to_free : forall m t, adm m t -> adm Free t. Proof. intros [] t H; [exact H | apply any_free, H | apply any_free, non_any, H]. Qed.
Lemma below_le : forall m t, adm (below m) t -> adm m t. Proof. intros [] t H; cbn in H; [exact H | apply non_any, H | exact H]. Qed.

(** Values in places below powers. *)
Lemma xpo_value : forall t, xpo t -> exists v, ev t = Some v /\ exists n, v = IZR n.
Proof.
  induction t as [k | i | u a IHa | b a IHa c IHc | o a IHa b IHb | f a IHa b IHb c IHc | c IHc a IHa b IHb]; cbn [expo]; try contradiction.
  - intros H. exists (den k). auto.
  - destruct b; try contradiction. intros [H1 H2]. destruct (IHa H1) as [x [X [n ->]]]. destruct (IHc H2) as [y [Y [m ->]]].
    exists (IZR n + IZR m). cbn [eval]. rewrite X, Y. split; [reflexivity |]. exists (n + m)%Z. rewrite plus_IZR. reflexivity.
Qed.
Lemma truth_nonneg : forall b, 0 <= truth b. Proof. intros []; cbn; lra. Qed.
Lemma non_value : forall t v, adm NonNeg t -> ev t = Some v -> 0 <= v.
Proof.
  induction t as [k | i | u a IHa | b a IHa c IHc | o a IHa b IHb | f a IHa b IHb c IHc | c IHc a IHa b IHb]; intros v; cbn [covered].
  - cbn. intros H [= <-]. exact H.
  - cbn. intros H [= <-]. exact H.
  - intros H V. cbn [eval] in V. destruct (ev a) as [x |] eqn:X; [| discriminate].
    destruct u; cbn [usem below] in *; try (destruct H as [C _]; contradiction C; reflexivity); try (injection V as <-).
    + destruct (Rle_dec 0 x); [| discriminate]. injection V as <-. apply sqrt_pos.
    + apply Rabs_pos.
    + apply truth_nonneg.
    + left. apply exp_pos.
  - intros H V. cbn [eval] in V. unfold bind2 in V. destruct (ev a) as [x |] eqn:X; [| discriminate]. destruct (ev c) as [y |] eqn:Y; [| discriminate].
    destruct b; cbn [bsem inner outer below] in *; try (destruct H as [C _]; contradiction C; reflexivity); try (injection V as <-); try apply truth_nonneg.
    + destruct H as [H1 H2]. specialize (IHa x H1 eq_refl). specialize (IHc y H2 eq_refl). lra.
    + destruct H as [H1 H2]. apply Rmult_le_pos; [apply (IHa x H1 eq_refl) | apply (IHc y H2 eq_refl)].
    + destruct H as [H1 H2]. destruct (Req_EM_T y 0) as [| N]; [discriminate |]. injection V as <-. specialize (IHa x H1 eq_refl). specialize (IHc y H2 eq_refl).
      unfold Rdiv. apply Rmult_le_pos; [exact IHa | left; apply Rinv_0_lt_compat; lra].
    + destruct H as [H1 H2]. unfold Rmax. destruct (Rle_dec x y); [apply (IHc y H2 eq_refl) | apply (IHa x H1 eq_refl)].
    + destruct H as [H1 H2]. unfold Rmin. destruct (Rle_dec x y); [apply (IHa x H1 eq_refl) | apply (IHc y H2 eq_refl)].
    + destruct H as [[H1 H2] | [C _]]; [| discriminate]. apply (rpow_nonneg x y v (IHa x H1 eq_refl) V).
  - intros _ V. cbn [eval] in V. unfold bind2 in V. destruct (ev a) as [x |]; [| discriminate]. destruct (ev b) as [y |]; [| discriminate]. injection V as <-.
    destruct o; cbn [csem]; match goal with |- context [if ?b then _ else _] => destruct b end; lra.
  - intros [C _]. contradiction C; reflexivity.
  - intros [C _]. contradiction C; reflexivity.
Qed.
Lemma adm_value : forall d t v, adm d t -> ev t = Some v -> inM d v.
Proof. intros [] t v H V; cbn; auto. apply (non_value t v H V). Qed.

(** Products of powers. *)
Fixpoint pv (l : list (ex * K A)) : option R :=
  match l with
  | [] => Some 1
  | (t, e) :: r => match ev t, pv r with
                   | Some x, Some p => match rpow false x (den e) with Some w => Some (w * p) | None => None end
                   | _, _ => None end
  end.
Lemma pv_cons : forall t e l x w p, ev t = Some x -> rpow false x (den e) = Some w -> pv l = Some p -> pv ((t, e) :: l) = Some (w * p).
Proof. intros t e l x w p H1 H2 H3. cbn. rewrite H1, H3, H2. reflexivity. Qed.
Lemma pv_cons_inv : forall t e l v, pv ((t, e) :: l) = Some v -> exists x w p, ev t = Some x /\ rpow false x (den e) = Some w /\ pv l = Some p /\ v = w * p.
Proof.
  intros t e l v. cbn. destruct (ev t) as [x |]; [| discriminate]. destruct (pv l) as [p |]; [| discriminate].
  destruct (rpow false x (den e)) as [w |] eqn:W; [| discriminate]. intros [= <-]. exists x, w, p. auto.
Qed.
Lemma pv_app : forall l m p q, pv l = Some p -> pv m = Some q -> pv (l ++ m) = Some (p * q).
Proof.
  induction l as [| [t e] l IH]; intros m p q H1 H2.
  - injection H1 as <-. cbn [app]. rewrite H2. f_equal. ring.
  - destruct (pv_cons_inv _ _ _ _ H1) as [x [w [p' [X [W [P ->]]]]]]. cbn [app]. rewrite (pv_cons _ _ _ _ _ _ X W (IH m p' q P H2)). f_equal. ring.
Qed.
Lemma pv_perm : forall l m, Permutation l m -> forall p, pv l = Some p -> pv m = Some p.
Proof.
  intros l m H. induction H as [| [t e] l m H IH | [t e] [u f] l | l m n _ IH1 _ IH2]; intros p.
  - auto.
  - intros P. destruct (pv_cons_inv _ _ _ _ P) as [x [w [q [X [W [Q ->]]]]]]. apply (pv_cons _ _ _ _ _ _ X W (IH q Q)).
  - intros P. destruct (pv_cons_inv _ _ _ _ P) as [x [w [q [X [W [Q ->]]]]]]. destruct (pv_cons_inv _ _ _ _ Q) as [x2 [w2 [q2 [X2 [W2 [Q2 ->]]]]]].
    rewrite (pv_cons _ _ _ _ _ _ X2 W2 (pv_cons _ _ _ _ _ _ X W Q2)). f_equal. ring.
  - auto.
Qed.

(** Factors of products, quotients and constant powers. *)
Lemma pv_one : forall t e v w, ev t = Some v -> rpow false v (den e) = Some w -> pv [(t, e)] = Some w.
Proof. intros t e v w H3 H4. rewrite (pv_cons _ _ _ _ _ _ H3 H4 (eq_refl : pv [] = Some 1)). f_equal. ring. Qed.
(* below a power the exponents may be any *)
Definition two (d : mode) : Prop := d = Any \/ d = NonNeg.
Lemma two_inner : forall d, two d -> inner d = d. Proof. intros d [-> | ->]; reflexivity. Qed.
Lemma factors_val : forall t d e v w, two d -> adm d t -> inE d (den e) -> ev t = Some v -> rpow false v (den e) = Some w -> pv (factors t e) = Some w.
Proof.
  induction t as [k | i | u a IHa | b a IHa c IHc | o a IHa b IHb | f a IHa b IHb c IHc | c IHc a IHa b IHb]; intros d e v w TW H1 H2 H3 H4;
    try (apply (pv_one _ e v w H3 H4)).
  destruct b; try (apply (pv_one _ e v w H3 H4)).
  - destruct H1 as [A1 A2]. rewrite (two_inner d TW) in A1, A2. cbn [eval] in H3. unfold bind2 in H3. destruct (ev a) as [x |] eqn:X; [| discriminate]. destruct (ev c) as [y |] eqn:Y; [| discriminate].
    injection H3 as <-. destruct (law_mul d x y (den e) w (adm_value d a x A1 X) (adm_value d c y A2 Y) H2 H4) as [p [q [P [Q ->]]]].
    cbn [factors]. apply pv_app; [apply (IHa d e x p TW A1 H2 eq_refl P) | apply (IHc d e y q TW A2 H2 eq_refl Q)].
  - destruct H1 as [A1 A2]. rewrite (two_inner d TW) in A1, A2. cbn [eval] in H3. unfold bind2 in H3. destruct (ev a) as [x |] eqn:X; [| discriminate]. destruct (ev c) as [y |] eqn:Y; [| discriminate].
    cbn [bsem] in H3. destruct (Req_EM_T y 0) as [| NZ]; [discriminate |]. injection H3 as <-.
    destruct (law_mul d x (/ y) (den e) w (adm_value d a x A1 X) (inD_inv d y NZ (adm_value d c y A2 Y)) H2 H4) as [p [q [P [Q ->]]]].
    apply rpow_inv in Q; [| exact NZ]. rewrite <- (e_neg A den E) in Q. assert (H2' : inE d (den (kneg A e))) by (rewrite (e_neg A den E); apply inE_opp, H2).
    cbn [factors]. apply pv_app; [apply (IHa d e x p TW A1 H2 eq_refl P) | apply (IHc d (kneg A e) y q TW A2 H2' eq_refl Q)].
  - destruct c as [k | | | | | |]; try (apply (pv_one _ e v w H3 H4)).
    cbn [eval] in H3. unfold bind2 in H3. destruct (ev a) as [x |] eqn:X; [| discriminate]. cbn [bsem] in H3. cbn [factors].
    destruct H1 as [[A1 _] | [-> [A1 A2]]].
    + assert (BN : below d = NonNeg) by (destruct TW as [-> | ->]; reflexivity). rewrite BN in A1.
      apply (IHa NonNeg (kmul A e k) x w); [right; reflexivity | exact A1 | exact I | reflexivity |].
      rewrite (e_mul A den E). apply (law_pow NonNeg x (den k) v (den e) w (non_value a x A1 X) I H3 H4).
    + apply (IHa Any (kmul A e k) x w TW A1).
      * rewrite (e_mul A den E). apply inE_mul; [exact H2 | exact A2].
      * reflexivity.
      * rewrite (e_mul A den E). apply (law_pow Any x (den k) v (den e) w I H2 H3 H4).
Qed.
Definition fok (d : mode) (x : ex * K A) : Prop := adm NonNeg (fst x) \/ (d = Any /\ adm Any (fst x) /\ inE Any (den (snd x))).
Lemma fok_intro : forall d t e, two d -> adm d t -> inE d (den e) -> fok d (t, e).
Proof. intros d t e [-> | ->] H1 H2; [right; auto | left; exact H1]. Qed.
Lemma fok_non : forall d x, fok NonNeg x -> fok d x. Proof. intros d x [H | [C _]]; [left; exact H | discriminate]. Qed.
Lemma factors_fok : forall t d e, two d -> adm d t -> inE d (den e) -> Forall (fok d) (factors t e).
Proof.
  induction t as [k | i | u a IHa | b a IHa c IHc | o a IHa b IHb | f a IHa b IHb c IHc | c IHc a IHa b IHb]; intros d e TW H1 H2;
    try (constructor; [apply fok_intro; assumption | constructor]).
  destruct b; try (constructor; [apply fok_intro; assumption | constructor]).
  - destruct H1 as [A1 A2]. rewrite (two_inner d TW) in A1, A2. cbn [factors]. apply Forall_app. auto.
  - destruct H1 as [A1 A2]. rewrite (two_inner d TW) in A1, A2. cbn [factors]. apply Forall_app. split; [auto |]. apply IHc; [exact TW | exact A2 |]. rewrite (e_neg A den E). apply inE_opp, H2.
  - destruct c as [k | | | | | |]; try (constructor; [apply fok_intro; assumption | constructor]). cbn [factors]. destruct H1 as [[A1 _] | [-> [A1 A2]]].
    + assert (BN : below d = NonNeg) by (destruct TW as [-> | ->]; reflexivity). rewrite BN in A1. eapply Forall_impl; [intros x; apply fok_non |].
      apply IHa; [right; reflexivity | exact A1 | exact I].
    + apply IHa; [exact TW | exact A1 |]. rewrite (e_mul A den E). apply inE_mul; [exact H2 | exact A2].
Qed.
Lemma fok_base : forall d x, two d -> fok d x -> exists d', two d' /\ adm d' (fst x) /\ inE d' (den (snd x)) /\ (forall y, fok d' y -> fok d y).
Proof.
  intros d x TW [H | [-> [H1 H2]]].
  - exists NonNeg. split; [right; reflexivity |]. split; [exact H |]. split; [exact I | intros y; apply fok_non].
  - exists Any. auto.
Qed.

Variable num : ex -> nat.
Lemma madd_val : forall t e m p x w, pv m = Some p -> ev t = Some x -> rpow false x (den e) = Some w -> pv (madd num t e m) = Some (p * w).
Proof.
  intros t e m p x w H X W.
  assert (W0 : rpow false x (den (kadd A (kint A 0) e)) = Some w) by (rewrite (e_add A den E), (e_int A den E), Rplus_0_l; exact W).
  revert p H. induction m as [| [u f] m IH]; intros p H; cbn [madd].
  - injection H as <-. rewrite (pv_one _ _ _ _ X W0). f_equal. ring.
  - destruct (pv_cons_inv _ _ _ _ H) as [x' [w' [q [X' [W' [Q ->]]]]]]. destruct (exeq t u) eqn:EQ.
    + apply exeq_true in EQ. subst u. rewrite X in X'. injection X' as <-.
      assert (S : rpow false x (den (kadd A f e)) = Some (w' * w)) by (rewrite (e_add A den E); apply rpow_add; assumption).
      rewrite (pv_cons _ _ _ _ _ _ X S Q). f_equal. ring.
    + destruct (Nat.ltb (num t) (num u)).
      * rewrite (pv_cons _ _ _ _ _ _ X W0 H). f_equal. ring.
      * rewrite (pv_cons _ _ _ _ _ _ X' W' (IH q Q)). f_equal. ring.
Qed.
Lemma madd_fok : forall d t e m, Forall (fok d) m -> fok d (t, e) -> Forall (fok d) (madd num t e m).
Proof.
  intros d t e m F FT.
  assert (F0 : fok d (t, kadd A (kint A 0) e)).
  { destruct FT as [H | [-> [H1 H2]]]; [left; exact H | right]. cbn [fst snd] in *. rewrite (e_add A den E), (e_int A den E), Rplus_0_l. auto. }
  induction F as [| [u f] m F1 F IH]; cbn [madd]; [constructor; [exact F0 | constructor] |]. destruct (exeq t u) eqn:Q.
  - apply exeq_true in Q. subst u. constructor; [| exact F]. destruct FT as [H | [-> [H1 H2]]]; [left; exact H |].
    destruct F1 as [H | [_ [H3 H4]]]; [left; exact H |]. right. cbn [fst snd] in *. split; [reflexivity |]. split; [exact H1 |]. rewrite (e_add A den E). apply inE_add; assumption.
  - destruct (Nat.ltb (num t) (num u)); [| constructor; [exact F1 | exact IH]]. constructor; [exact F0 |]. constructor; [exact F1 | exact F].
Qed.
Lemma fold_madd_val : forall l m p q, pv m = Some p -> pv l = Some q -> pv (fold_left (fun m x => madd num (fst x) (snd x) m) l m) = Some (p * q).
Proof.
  induction l as [| [t e] l IH]; intros m p q H1 H2; cbn [fold_left fst snd].
  - injection H2 as <-. rewrite H1. f_equal. ring.
  - destruct (pv_cons_inv _ _ _ _ H2) as [x [w [q' [X [W [Q ->]]]]]]. rewrite (IH _ _ _ (madd_val t e m p x w H1 X W) Q). f_equal. ring.
Qed.
Lemma fold_madd_fok : forall d l m, Forall (fok d) m -> Forall (fok d) l -> Forall (fok d) (fold_left (fun m x => madd num (fst x) (snd x) m) l m).
Proof.
  intros d l m F1 F2. revert m F1. induction F2 as [| [t e] l F3 F IH]; intros m F1; cbn [fold_left fst snd]; [exact F1 |]. apply IH, madd_fok; assumption.
Qed.
Lemma mkMap_val : forall d l q, two d -> Forall (fok d) l -> pv l = Some q -> pv (mkMap num l) = Some q.
Proof.
  intros d l q TW F H. unfold mkMap.
  assert (X : pv (flat_map (fun x => factors (fst x) (snd x)) l) = Some q).
  { revert q H. induction F as [| [t e] l F1 F IH]; intros q H; [exact H |].
    destruct (pv_cons_inv _ _ _ _ H) as [x [w [p [X [W [P ->]]]]]]. cbn [flat_map fst snd] in *. destruct (fok_base d _ TW F1) as [d' [TW' [B1 [B2 _]]]].
    apply pv_app; [apply (factors_val t d' e x w TW' B1 B2 X W) | apply (IH p P)]. }
  rewrite (fold_madd_val _ [] 1 q eq_refl X). f_equal. ring.
Qed.
Lemma mkMap_fok : forall d l, two d -> Forall (fok d) l -> Forall (fok d) (mkMap num l).
Proof.
  intros d l TW F. unfold mkMap. apply fold_madd_fok; [constructor |]. apply Forall_flat_map. eapply Forall_impl; [| exact F]. intros [t e] F1.
  destruct (fok_base d _ TW F1) as [d' [TW' [B1 [B2 B3]]]]. eapply Forall_impl; [exact B3 |]. apply factors_fok; assumption.
Qed.

(** Terms: a coefficient times a product. *)
Definition tv (x : term) : option R := match pv (tmap x) with Some p => Some (den (tcoeff x) * p) | None => None end.
Definition tok (d : mode) (x : term) : Prop := Forall (fok d) (tmap x) /\ inM d (den (tcoeff x)).
Lemma combineC_val : forall m c p, pv m = Some p -> tv (combineC m c) = Some (den c * p).
Proof.
  intros m c p. unfold combineC, tv. cbn [tmap tcoeff]. revert c p. induction m as [| [t e] m IH]; intros c p H.
  - cbn in *. injection H as <-. auto.
  - destruct (pv_cons_inv _ _ _ _ H) as [x [w [q [X [W [Q ->]]]]]]. cbn [filter fold_left fst snd] in *.
    destruct t as [k | | | | | |]; cbn [isC negb].
    1: { change (coeffStep c (Const k, e)) with (kmul A c (kpow A k e)). cbn in X. injection X as <-. pose proof (e_pow A den E k e w W) as P.
         specialize (IH (kmul A c (kpow A k e)) q Q). destruct (pv (filter _ m)); [| discriminate]. rewrite IH. rewrite (e_mul A den E), P. f_equal. ring. }
    all: match goal with |- context [coeffStep ?cc ?x] => change (coeffStep cc x) with cc end.
    all: pose proof (IH c q Q) as I1; (destruct (pv (filter _ m)) as [r |] eqn:PF; [| discriminate]); rewrite (pv_cons _ _ _ _ _ _ X W PF); injection I1 as I1; f_equal;
      rewrite <- (Rmult_assoc _ w r), (Rmult_comm _ w), Rmult_assoc, I1; ring.
Qed.
Lemma combineC_tok : forall d m c p, two d -> Forall (fok d) m -> pv m = Some p -> inM d (den c) -> tok d (combineC m c).
Proof.
  intros d m c p TW F P C. unfold combineC, tok. cbn [tmap tcoeff]. split.
  - rewrite Forall_forall in *. intros x X. apply filter_In in X. apply F, X.
  - revert c C p P. induction F as [| [t e] m F1 F IH]; intros c C p P; cbn [fold_left]; [exact C |].
    destruct (pv_cons_inv _ _ _ _ P) as [x [w [q [X [W [Q ->]]]]]]. refine (IH _ _ q Q). unfold coeffStep. cbn [fst snd] in *.
    destruct t as [k | | | | | |]; try exact C. rewrite (e_mul A den E). apply inD_mul; [exact C |]. cbn in X. injection X as <-. rewrite (e_pow A den E k e w W).
    destruct TW as [-> | ->]; [exact I |]. destruct F1 as [H | [NC _]]; [| discriminate]. apply (rpow_nonneg _ _ _ H W).
Qed.
Lemma insert_perm : forall {T} (lt : T -> T -> bool) x l, Permutation (x :: l) (insert lt x l).
Proof.
  intros T lt x l. induction l as [| y l IH]; cbn; [reflexivity |]. destruct (lt x y); [reflexivity |].
  rewrite perm_swap. apply perm_skip, IH.
Qed.
Lemma sort_perm : forall {T} (lt : T -> T -> bool) l, Permutation l (sort lt l).
Proof. intros T lt l. induction l as [| x l IH]; cbn; [reflexivity |]. rewrite <- insert_perm. apply perm_skip, IH. Qed.
Lemma emitFactor_val : forall t e x w, ev t = Some x -> rpow false x (den e) = Some w -> ev (emitFactor (t, e)) = Some w.
Proof.
  intros t e x w X W. unfold emitFactor. cbn [fst snd] in *. destruct (keq A e (kint A 1)) eqn:Q.
  - apply (keq_den E) in Q. rewrite (e_int A den E) in Q. rewrite Q, rpow_1 in W. injection W as <-. auto.
  - cbn [eval]. rewrite X. exact W.
Qed.
Lemma emitFactor_adm : forall d x, two d -> fok d x -> adm d (emitFactor x).
Proof.
  intros d [t e] TW F. unfold emitFactor. cbn [fst snd] in *. destruct (keq A e (kint A 1)).
  - destruct F as [H | [-> [H _]]]; [destruct TW as [-> | ->]; [apply non_any, H | exact H] | exact H].
  - cbn [covered]. destruct F as [H | [-> [H1 H2]]]; [left; split; [destruct TW as [-> | ->]; exact H | exact I] | right; auto].
Qed.
Lemma prod_val : forall l t v p, ev t = Some v -> pv l = Some p -> ev (fold_left (fun a b => Mul a b) (map emitFactor l) t) = Some (v * p).
Proof.
  induction l as [| [u e] l IH]; intros t v p V H; cbn [map fold_left].
  - injection H as <-. rewrite V. f_equal. ring.
  - destruct (pv_cons_inv _ _ _ _ H) as [x [w [q [X [W [Q ->]]]]]].
    assert (V' : ev (Mul t (emitFactor (u, e))) = Some (v * w)) by (cbn [eval]; rewrite V, (emitFactor_val u e x w X W); reflexivity).
    rewrite (IH _ _ _ V' Q). f_equal. ring.
Qed.
Lemma mul_adm : forall d a b, two d -> adm d a -> adm d b -> adm d (Mul a b).
Proof. intros d a b TW H1 H2. cbn [covered]. rewrite (two_inner d TW). auto. Qed.
Lemma add_adm : forall d a b, two d -> adm d a -> adm d b -> adm d (Add a b).
Proof. intros d a b TW H1 H2. cbn [covered]. rewrite (two_inner d TW). auto. Qed.
Lemma prod_adm : forall d l t, two d -> adm d t -> Forall (fok d) l -> adm d (fold_left (fun a b => Mul a b) (map emitFactor l) t).
Proof.
  intros d l t TW AT F. revert t AT. induction F as [| x l F1 F IH]; intros t AT; cbn [map fold_left]; [exact AT |]. apply IH, mul_adm; [exact TW | exact AT |].
  apply emitFactor_adm; assumption.
Qed.
Lemma emitTerm_val : forall x v, tv x = Some v -> ev (emitTerm num x) = Some v.
Proof.
  intros x v H. unfold tv in H. destruct (pv (tmap x)) as [p |] eqn:P; [| discriminate]. injection H as <-. unfold emitTerm.
  pose proof (pv_perm _ _ (sort_perm (canonLt num) (tmap x)) p P) as P'. clear P.
  destruct (sort (canonLt num) (tmap x)) as [| [t e] l]; cbn [map].
  - injection P' as <-. cbn. f_equal. ring.
  - destruct (pv_cons_inv _ _ _ _ P') as [y [w [q [Y [W [Q ->]]]]]].
    pose proof (prod_val l _ w q (emitFactor_val t e y w Y W) Q) as R1. destruct (keq A (tcoeff x) (kint A 1)) eqn:K1.
    + apply (keq_den E) in K1. rewrite (e_int A den E) in K1. cbv zeta. rewrite R1, K1. f_equal. ring.
    + cbv zeta. cbn [eval]. rewrite R1. cbn [bind2 bsem]. f_equal. ring.
Qed.
Lemma emitTerm_adm : forall d x, two d -> tok d x -> adm d (emitTerm num x).
Proof.
  intros d x TW [F C]. unfold emitTerm.
  assert (F' : Forall (fok d) (sort (canonLt num) (tmap x))) by (eapply Permutation_Forall; [apply sort_perm | exact F]). clear F.
  destruct F' as [| y l F1 F2]; cbn [map]; [exact C |]. pose proof (prod_adm d l _ TW (emitFactor_adm d y TW F1) F2) as R. cbv zeta.
  destruct (keq A (tcoeff x) (kint A 1)); [exact R |]. apply mul_adm; [exact TW | exact R | exact C].
Qed.

(** Products and quotients. *)
Lemma sign_inE : forall d pos, inE d (den (sign pos)).
Proof. intros d []; cbn [sign]; rewrite (e_int A den E); apply inE_int. Qed.
Lemma sign_neg : forall pos, den (sign (negb pos)) = - den (sign pos).
Proof. intros []; cbn [sign negb]; rewrite !(e_int A den E); lra. Qed.
Notation sgn := (map (fun x : ex * bool => (fst x, sign (snd x)))).
Lemma mulTerms_val : forall d t pos v w, two d -> adm d t -> ev t = Some v -> rpow false v (den (sign pos)) = Some w -> pv (sgn (mulTerms pos t)) = Some w.
Proof.
  intros d. induction t as [k | i | u a IHa | b a IHa c IHc | o a IHa b IHb | f a IHa b IHb c IHc | c IHc a IHa b IHb]; intros pos v w TW H1 H3 H4;
    try (apply (pv_one _ (sign pos) v w H3 H4)).
  destruct b; try (apply (pv_one _ (sign pos) v w H3 H4)).
  - destruct H1 as [A1 A2]. rewrite (two_inner d TW) in A1, A2. cbn [eval] in H3. unfold bind2 in H3. destruct (ev a) as [x |] eqn:X; [| discriminate]. destruct (ev c) as [y |] eqn:Y; [| discriminate].
    injection H3 as <-. destruct (law_mul d x y _ w (adm_value d a x A1 X) (adm_value d c y A2 Y) (sign_inE d pos) H4) as [p [q [P [Q ->]]]].
    cbn [mulTerms]. rewrite map_app. apply pv_app; [apply (IHa pos x p TW A1 eq_refl P) | apply (IHc pos y q TW A2 eq_refl Q)].
  - destruct H1 as [A1 A2]. rewrite (two_inner d TW) in A1, A2. cbn [eval] in H3. unfold bind2 in H3. destruct (ev a) as [x |] eqn:X; [| discriminate]. destruct (ev c) as [y |] eqn:Y; [| discriminate].
    cbn [bsem] in H3. destruct (Req_EM_T y 0) as [| NZ]; [discriminate |]. injection H3 as <-.
    destruct (law_mul d x (/ y) _ w (adm_value d a x A1 X) (inD_inv d y NZ (adm_value d c y A2 Y)) (sign_inE d pos) H4) as [p [q [P [Q ->]]]].
    apply rpow_inv in Q; [| exact NZ]. rewrite <- sign_neg in Q.
    cbn [mulTerms]. rewrite map_app. apply pv_app; [apply (IHa pos x p TW A1 eq_refl P) | apply (IHc (negb pos) y q TW A2 eq_refl Q)].
Qed.
Lemma mulTerms_fok : forall d t pos, two d -> adm d t -> Forall (fok d) (sgn (mulTerms pos t)).
Proof.
  intros d. induction t as [k | i | u a IHa | b a IHa c IHc | o a IHa b IHb | f a IHa b IHb c IHc | c IHc a IHa b IHb]; intros pos TW H1;
    try (constructor; [apply fok_intro; [exact TW | exact H1 | apply sign_inE] | constructor]).
  destruct b; try (constructor; [apply fok_intro; [exact TW | exact H1 | apply sign_inE] | constructor]).
  - destruct H1 as [A1 A2]. rewrite (two_inner d TW) in A1, A2. cbn [mulTerms]. rewrite map_app. apply Forall_app. auto.
  - destruct H1 as [A1 A2]. rewrite (two_inner d TW) in A1, A2. cbn [mulTerms]. rewrite map_app. apply Forall_app. auto.
Qed.
Lemma k1_den : den (kint A 1) = 1. Proof. apply (e_int A den E). Qed.
Lemma k0_den : den (kint A 0) = 0. Proof. apply (e_int A den E). Qed.
Theorem analyzeMul_ok : forall d t t' v, two d -> adm d t -> ev t = Some v -> analyzeMul num t = Some t' -> ev t' = Some v /\ adm d t'.
Proof.
  intros d t t' v TW AT V. unfold analyzeMul. destruct (_ || _ || _)%bool; [| discriminate]. intros [= <-].
  pose proof (mulTerms_fok d t true TW AT) as F.
  assert (M : pv (mkMap num (sgn (mulTerms true t))) = Some v).
  { apply (mkMap_val d); [exact TW | exact F |]. apply (mulTerms_val d t true v v TW AT V). cbn [sign]. rewrite k1_den. apply rpow_1. }
  split.
  - apply emitTerm_val. unfold expand. rewrite (combineC_val _ _ v M), k1_den. f_equal. ring.
  - apply emitTerm_adm; [exact TW |]. eapply combineC_tok; [exact TW | apply mkMap_fok; assumption | exact M |]. rewrite k1_den. apply inD_1.
Qed.

(** Sums and differences. *)
Fixpoint asum (l : list (ex * bool)) : option R :=
  match l with [] => Some 0 | (t, p) :: r => match ev t, asum r with Some x, Some s => Some ((if p then x else - x) + s) | _, _ => None end end.
Lemma asum_app : forall l m p q, asum l = Some p -> asum m = Some q -> asum (l ++ m) = Some (p + q).
Proof.
  induction l as [| [t b] l IH]; intros m p q H1 H2; cbn [app asum] in *.
  - injection H1 as <-. rewrite H2. f_equal. ring.
  - destruct (ev t) as [x |]; [| discriminate]. destruct (asum l) as [s |]; [| discriminate]. injection H1 as <-. rewrite (IH m s q eq_refl H2). f_equal. ring.
Qed.
Lemma addTerms_val : forall t pos v, ev t = Some v -> asum (addTerms pos t) = Some (if pos then v else - v).
Proof.
  assert (L : forall t (pos : bool) v, ev t = Some v -> asum [(t, pos)] = Some (if pos then v else - v)).
  { intros t pos v V. cbn. rewrite V. f_equal. ring. }
  induction t as [k | i | u a IHa | b a IHa c IHc | o a IHa b IHb | f a IHa b IHb c IHc | c IHc a IHa b IHb]; intros pos v V; try (apply L, V).
  destruct b; try (apply L, V); cbn [eval] in V; unfold bind2 in V; (destruct (ev a) as [x |]; [| discriminate]); (destruct (ev c) as [y |]; [| discriminate]);
    injection V as <-; cbn [addTerms].
  - rewrite (asum_app _ _ _ _ (IHa pos x eq_refl) (IHc pos y eq_refl)). destruct pos; f_equal; ring.
  - rewrite (asum_app _ _ _ _ (IHa pos x eq_refl) (IHc (negb pos) y eq_refl)). destruct pos; cbn [negb]; f_equal; ring.
Qed.
Definition aok (d : mode) (x : ex * bool) : Prop := adm d (fst x) /\ inM d (den (sign (snd x))).
Lemma addTerms_aok : forall d t pos, two d -> adm d t -> inM d (den (sign pos)) -> Forall (aok d) (addTerms pos t).
Proof.
  intros d. induction t as [k | i | u a IHa | b a IHa c IHc | o a IHa b IHb | f a IHa b IHb c IHc | c IHc a IHa b IHb]; intros pos TW H1 H2;
    try (constructor; [split; assumption | constructor]).
  destruct b; try (constructor; [split; assumption | constructor]).
  - destruct H1 as [A1 A2]. rewrite (two_inner d TW) in A1, A2. cbn [addTerms]. apply Forall_app. auto.
  - destruct H1 as [B [A1 A2]]. assert (DA : d = Any) by (destruct TW as [D | D]; [exact D | contradiction]). rewrite DA in *. cbn [addTerms]. apply Forall_app.
    split; [auto |]. apply IHc; [exact TW | exact A2 | exact I].
Qed.
Fixpoint tsum (l : list term) : option R :=
  match l with [] => Some 0 | x :: r => match tv x, tsum r with Some a, Some s => Some (a + s) | _, _ => None end end.
Lemma tsum_cons : forall x l a s, tv x = Some a -> tsum l = Some s -> tsum (x :: l) = Some (a + s).
Proof. intros x l a s H1 H2. cbn. rewrite H1, H2. reflexivity. Qed.
Lemma tsum_inv : forall x l v, tsum (x :: l) = Some v -> exists a s, tv x = Some a /\ tsum l = Some s /\ v = a + s.
Proof. intros x l v. cbn. destruct (tv x) as [a |]; [| discriminate]. destruct (tsum l) as [s |]; [| discriminate]. intros [= <-]. eauto. Qed.
Lemma tsum_perm : forall l m, Permutation l m -> forall p, tsum l = Some p -> tsum m = Some p.
Proof.
  intros l m H. induction H as [| x l m H IH | x y l | l m n _ IH1 _ IH2]; intros p.
  - auto.
  - intros P. destruct (tsum_inv _ _ _ P) as [a [s [X [S ->]]]]. apply (tsum_cons _ _ _ _ X (IH s S)).
  - intros P. destruct (tsum_inv _ _ _ P) as [a [s [X [S ->]]]]. destruct (tsum_inv _ _ _ S) as [b [s2 [Y [S2 ->]]]].
    rewrite (tsum_cons _ _ _ _ Y (tsum_cons _ _ _ _ X S2)). f_equal. ring.
  - auto.
Qed.
Definition expand1 (x : ex * bool) : term := expand num [(fst x, kint A 1)] (kmul A (kint A 1) (sign (snd x))).
Lemma expand1_val : forall d t p x, two d -> adm d t -> ev t = Some x -> tv (expand1 (t, p)) = Some (if p then x else - x) /\ (inM d (den (sign p)) -> tok d (expand1 (t, p))).
Proof.
  intros d t p x TW AT X. unfold expand1, expand. cbn [fst snd].
  assert (F : Forall (fok d) [(t, kint A 1)]) by (constructor; [apply fok_intro; [exact TW | exact AT | rewrite (e_int A den E); apply inE_int] | constructor]).
  assert (P : pv [(t, kint A 1)] = Some x) by (apply (pv_one t _ x x X); rewrite k1_den; apply rpow_1).
  pose proof (mkMap_val d _ x TW F P) as M. split.
  - rewrite (combineC_val _ _ x M). f_equal. rewrite (e_mul A den E), k1_den. destruct p; cbn [sign]; rewrite (e_int A den E); ring.
  - intros S. eapply combineC_tok; [exact TW | apply mkMap_fok; assumption | exact M |]. rewrite (e_mul A den E), k1_den, Rmult_1_l. exact S.
Qed.
Lemma expand_sum : forall d l v, two d -> Forall (aok d) l -> asum l = Some v -> tsum (map expand1 l) = Some v /\ Forall (tok d) (map expand1 l).
Proof.
  intros d l v TW F. revert v. induction F as [| [t p] l [F1 F2] F IH]; intros v H; [split; [exact H | constructor] |]. cbn [asum] in H. destruct (ev t) as [x |] eqn:X; [| discriminate].
  destruct (asum l) as [s |]; [| discriminate]. injection H as <-. cbn [map]. destruct (expand1_val d t p x TW F1 X) as [E1 E2]. destruct (IH s eq_refl) as [I1 I2].
  split; [apply tsum_cons; assumption | constructor; [apply E2, F2 | exact I2]].
Qed.
Lemma scalars_val : forall l v, tsum l = Some v -> exists u, tsum (proper l) = Some u /\ v = den (scalars l) + u.
Proof.
  intros l. unfold scalars.
  enough (G : forall l k v, tsum l = Some v -> exists u, tsum (proper l) = Some u /\ den k + v = den (fold_left (fun s x => match tmap x with [] => kadd A s (tcoeff x) | _ => s end) l k) + u).
  { intros v H. destruct (G l (kint A 0) v H) as [u [U W]]. exists u. split; [exact U |]. rewrite k0_den in W. lra. }
  clear l. induction l as [| x l IH]; intros k v H.
  - injection H as <-. exists 0. split; [reflexivity | reflexivity].
  - destruct (tsum_inv _ _ _ H) as [a [s [X [S ->]]]]. unfold proper. cbn [filter fold_left]. unfold tv in X. destruct (tmap x) as [| y m] eqn:M.
    + cbn in X. injection X as <-. destruct (IH (kadd A k (tcoeff x)) s S) as [u [U W]]. exists u. split; [exact U |]. rewrite (e_add A den E) in W. lra.
    + destruct (IH k s S) as [u [U W]]. exists (a + u). split; [| lra]. apply tsum_cons; [unfold tv; rewrite M; exact X | exact U].
Qed.
Lemma sameTerm_pv : forall m m', sameTerm m m' = true -> pv m = pv m'.
Proof.
  induction m as [| [t e] m IH]; intros [| [u f] m']; cbn [sameTerm]; try discriminate; [reflexivity |]. intros H. apply andb_true_iff in H. destruct H as [H H3].
  apply andb_true_iff in H. destruct H as [H1 H2]. apply exeq_true in H1. apply (keq_den E) in H2. subst u. cbn [pv]. rewrite H2, (IH m' H3). reflexivity.
Qed.
Lemma addZero_val : forall x r a s, tv x = Some a -> tsum r = Some s ->
  exists a' s', tv (addSame x r) = Some a' /\ tsum (zeroSame x r) = Some s' /\ a' + s' = a + s.
Proof.
  intros x r. unfold addSame, zeroSame.
  enough (G : forall r y a s, tmap y = tmap x -> tv y = Some a -> tsum r = Some s ->
    exists a' s', tv (fold_left (fun a y => if sameTerm (tmap x) (tmap y) then mkT (tmap a) (kadd A (tcoeff a) (tcoeff y)) else a) r y) = Some a' /\
                  tsum (map (fun y => if sameTerm (tmap x) (tmap y) then mkT (tmap y) (kmul A (tcoeff y) (kint A 0)) else y) r) = Some s' /\ a' + s' = a + s).
  { intros a s H1 H2. apply (G r x a s eq_refl H1 H2). }
  clear r. induction r as [| z r IH]; intros y a s M Y S.
  - injection S as <-. exists a, 0. auto.
  - destruct (tsum_inv _ _ _ S) as [b [s1 [Z0 [S1 ->]]]]. cbn [fold_left map]. destruct (sameTerm (tmap x) (tmap z)) eqn:ST.
    + apply sameTerm_pv in ST. unfold tv in Y, Z0. rewrite M in Y. rewrite ST in Y. destruct (pv (tmap z)) as [p |] eqn:P; [| discriminate].
      injection Y as <-. injection Z0 as <-.
      assert (Y' : tv (mkT (tmap y) (kadd A (tcoeff y) (tcoeff z))) = Some ((den (tcoeff y) + den (tcoeff z)) * p)).
      { unfold tv. cbn [tmap tcoeff]. rewrite M, ST, (e_add A den E). reflexivity. }
      destruct (IH (mkT (tmap y) (kadd A (tcoeff y) (tcoeff z))) _ s1 M Y' S1) as [a' [s' [A1 [A2 A3]]]]. exists a', (0 + s'). split; [exact A1 |]. split; [| lra].
      apply tsum_cons; [| exact A2]. unfold tv. cbn [tmap tcoeff]. rewrite P, (e_mul A den E), k0_den. f_equal. ring.
    + destruct (IH y a s1 M Y S1) as [a' [s' [A1 [A2 A3]]]]. exists a', (b + s'). split; [exact A1 |]. split; [| lra]. apply tsum_cons; assumption.
Qed.
Lemma merge_val : forall n l v, length l = n -> tsum l = Some v -> tsum (merge n l) = Some v.
Proof.
  induction n as [| n IH]; intros [| x r] v L H; try discriminate; [exact H |]. cbn [merge]. destruct (tsum_inv _ _ _ H) as [a [s [X [S ->]]]].
  destruct (addZero_val x r a s X S) as [a' [s' [A1 [A2 <-]]]]. cbv zeta.
  assert (L' : length (zeroSame x r) = n) by (unfold zeroSame; rewrite map_length; injection L as L; exact L).
  destruct (keq A (tcoeff (addSame x r)) (kint A 0)) eqn:K0.
  - apply (keq_den E) in K0. rewrite k0_den in K0. unfold tv in A1. destruct (pv (tmap (addSame x r))); [| discriminate]. injection A1 as <-.
    rewrite (IH _ s' L' A2). f_equal. rewrite K0. ring.
  - apply tsum_cons; [exact A1 | apply IH; assumption].
Qed.
Lemma addSame_tok : forall d x r, tok d x -> Forall (tok d) r -> tok d (addSame x r).
Proof.
  intros d x r HX F. unfold addSame.
  enough (G : forall y, tok d y -> tok d (fold_left (fun a y => if sameTerm (tmap x) (tmap y) then mkT (tmap a) (kadd A (tcoeff a) (tcoeff y)) else a) r y)) by (apply G, HX).
  induction F as [| z r Z0 F IH]; intros y Y; cbn [fold_left]; [exact Y |]. apply IH. destruct (sameTerm (tmap x) (tmap z)); [| exact Y].
  destruct Y as [Y1 Y2], Z0 as [Z1 Z2]. split; [exact Y1 |]. cbn [tcoeff]. rewrite (e_add A den E). apply inD_add; assumption.
Qed.
Lemma zeroSame_tok : forall d x r, Forall (tok d) r -> Forall (tok d) (zeroSame x r).
Proof.
  intros d x r F. unfold zeroSame. apply Forall_map. eapply Forall_impl; [| exact F]. intros z [Z1 Z2]. destruct (sameTerm (tmap x) (tmap z)); [| split; assumption].
  split; [exact Z1 |]. cbn [tcoeff]. rewrite (e_mul A den E), k0_den, Rmult_0_r. apply inD_0.
Qed.
Lemma merge_tok : forall d n l, Forall (tok d) l -> Forall (tok d) (merge n l).
Proof.
  intros d. induction n as [| n IH]; intros [| x r] F; try constructor. cbn [merge]. cbv zeta. inversion F as [| ? ? F1 F2]; subst.
  pose proof (addSame_tok d x r F1 F2) as TT. pose proof (IH _ (zeroSame_tok d x r F2)) as R. destruct (keq A (tcoeff (addSame x r)) (kint A 0)); [exact R | constructor; assumption].
Qed.
Lemma scalars_inD : forall d l, Forall (tok d) l -> inM d (den (scalars l)).
Proof.
  intros d l. unfold scalars.
  enough (G : forall k, inM d (den k) -> Forall (tok d) l -> inM d (den (fold_left (fun s x => match tmap x with [] => kadd A s (tcoeff x) | _ => s end) l k))).
  { intros F. apply G; [rewrite k0_den; apply inD_0 | exact F]. }
  intros k HK F. revert k HK. induction F as [| x l [_ F1] F IH]; intros k HK; cbn [fold_left]; [exact HK |]. apply IH. destruct (tmap x); [| exact HK].
  rewrite (e_add A den E). apply inD_add; assumption.
Qed.
Lemma sum_val : forall l t v p, ev t = Some v -> tsum l = Some p -> ev (fold_left (fun a b => Add a b) (map (emitTerm num) l) t) = Some (v + p).
Proof.
  induction l as [| x l IH]; intros t v p V H; cbn [map fold_left].
  - injection H as <-. rewrite V. f_equal. ring.
  - destruct (tsum_inv _ _ _ H) as [a [s [X [S ->]]]].
    assert (V' : ev (Add t (emitTerm num x)) = Some (v + a)) by (cbn [eval]; rewrite V, (emitTerm_val x a X); reflexivity).
    rewrite (IH _ _ _ V' S). f_equal. ring.
Qed.
Lemma sum_adm : forall d l t, two d -> adm d t -> Forall (tok d) l -> adm d (fold_left (fun a b => Add a b) (map (emitTerm num) l) t).
Proof.
  intros d l t TW AT F. revert t AT. induction F as [| x l F1 F IH]; intros t AT; cbn [map fold_left]; [exact AT |]. apply IH, add_adm; [exact TW | exact AT |].
  apply emitTerm_adm; assumption.
Qed.
Lemma emitSum_val : forall l s u, tsum l = Some u -> ev (emitSum num true l s) = Some (den s + u).
Proof.
  intros l s u H. unfold emitSum. destruct l as [| x l]; cbn [map].
  - injection H as <-. cbn. f_equal. ring.
  - destruct (tsum_inv _ _ _ H) as [a [w [X [W ->]]]]. pose proof (sum_val l _ a w (emitTerm_val x a X) W) as R. cbv zeta.
    destruct (keq A s (kint A 0)) eqn:K0; [apply (keq_den E) in K0; rewrite k0_den in K0; rewrite R, K0; f_equal; ring |].
    destruct (klt A s (kint A 0)) eqn:L0.
    + apply (e_lt A den E) in L0. rewrite k0_den in L0. cbn [eval]. rewrite R. cbn [bind2 bsem]. rewrite (e_abs A den E), Rabs_left by exact L0. f_equal. ring.
    + apply (klt_false E) in L0. rewrite k0_den in L0. cbn [eval]. rewrite R. cbn [bind2 bsem]. rewrite (e_abs A den E), Rabs_pos_eq by exact L0. f_equal. ring.
Qed.
Lemma emitSum_adm : forall d l s, two d -> Forall (tok d) l -> inM d (den s) -> adm d (emitSum num true l s).
Proof.
  intros d l s TW F S. unfold emitSum. destruct F as [| x l F1 F2]; cbn [map]; [exact S |].
  pose proof (sum_adm d l _ TW (emitTerm_adm d x TW F1) F2) as R. cbv zeta. destruct (keq A s (kint A 0)) eqn:K0; [exact R |].
  assert (AB : inM d (den (kabs A s))) by (rewrite (e_abs A den E); destruct d; [exact I | exact I |]; apply Rabs_pos).
  destruct (klt A s (kint A 0)) eqn:L0; [| apply add_adm; assumption].
  apply (e_lt A den E) in L0. rewrite k0_den in L0. destruct TW as [-> | ->]; [| cbn in S; lra]. cbn [covered]. split; [discriminate | split; [exact R | exact I]].
Qed.
Lemma proper_tok : forall d l, Forall (tok d) l -> Forall (tok d) (proper l).
Proof. intros d l F. unfold proper. rewrite Forall_forall in *. intros x X. apply filter_In in X. apply F, X. Qed.
Theorem analyzeAdd_ok : forall d t t' v, two d -> adm d t -> ev t = Some v -> analyzeAdd num true t = Some t' -> ev t' = Some v /\ adm d t'.
Proof.
  intros d t t' v TW AT V. unfold analyzeAdd. cbv zeta.
  change (fun x : ex * bool => expand num [(fst x, kint A 1)] (kmul A (kint A 1) (sign (snd x)))) with expand1.
  assert (F : Forall (aok d) (addTerms true t)) by (apply addTerms_aok; [exact TW | exact AT | cbn [sign]; rewrite k1_den; apply inD_1]).
  destruct (expand_sum d _ v TW F (addTerms_val t true v V)) as [S FT].
  set (ts := addTerms true t) in *. set (es := map expand1 ts) in *. set (l := merge (length (proper es)) (proper es)).
  destruct (_ || _)%bool; [| discriminate]. intros [= <-]. set (l' := if isSorted (termLt num) l then l else sort (termLt num) l).
  assert (PM : Permutation l l') by (unfold l'; destruct (isSorted (termLt num) l); [reflexivity | apply sort_perm]).
  assert (FL : Forall (tok d) l') by (eapply Permutation_Forall; [exact PM |]; apply merge_tok, proper_tok, FT).
  split.
  - destruct (scalars_val es v S) as [u [U ->]]. apply emitSum_val. eapply tsum_perm; [exact PM |]. apply merge_val; [reflexivity | exact U].
  - apply emitSum_adm; [exact TW | exact FL | apply scalars_inD, FT].
Qed.

(** Sums of constant exponents become one constant. *)
Lemma xpo_terms : forall t pos, xpo t -> Forall (fun x => isC (fst x) = true) (addTerms pos t) /\ (isAddSub t = true -> (2 <= length (addTerms pos t))%nat) /\ (1 <= length (addTerms pos t))%nat.
Proof.
  induction t as [k | i | u a IHa | b a IHa c IHc | o a IHa b IHb | f a IHa b IHb c IHc | c IHc a IHa b IHb]; cbn [expo]; intros pos; try contradiction.
  - intros _. split; [repeat constructor |]. split; [discriminate | cbn; lia].
  - destruct b; try contradiction. intros [H1 H2]. destruct (IHa pos H1) as [A1 [_ A3]]. destruct (IHc pos H2) as [B1 [_ B3]]. cbn [addTerms].
    split; [apply Forall_app; auto |]. rewrite app_length. split; [intros _; lia | lia].
Qed.
Lemma analyzeAdd_xpo : forall t, xpo t -> isAddSub t = true -> exists s, analyzeAdd num true t = Some (Const s) /\ ev t = Some (den s) /\ exists n, den s = IZR n.
Proof.
  intros t X AS. destruct (xpo_terms t true X) as [T1 [T2 _]]. specialize (T2 AS).
  assert (PR : proper (map expand1 (addTerms true t)) = []).
  { clear T2. induction T1 as [| [u p] l U _ IH]; [reflexivity |]. destruct u; try discriminate. exact IH. }
  assert (R : exists s, analyzeAdd num true t = Some (Const s)).
  { unfold analyzeAdd. cbv zeta. change (fun x : ex * bool => expand num [(fst x, kint A 1)] (kmul A (kint A 1) (sign (snd x)))) with expand1.
    rewrite PR. cbn [length merge isSorted]. eexists.
    match goal with |- (if ?b then _ else _) = _ => replace b with true end; [reflexivity |]. symmetry. apply orb_true_iff. left. apply Nat.ltb_lt. destruct (keq A _ _); lia. }
  destruct R as [s R]. exists s. split; [exact R |]. destruct (xpo_value t X) as [v [VT [n IE]]].
  destruct (analyzeAdd_ok Any t (Const s) v (or_introl eq_refl) (xpo_any t X) VT R) as [V _]. cbn in V. injection V as V. rewrite V. eauto.
Qed.
Lemma alg_xpo : forall t ch, xpo t -> refs t (fst (alg num true false false t ch)) /\ xpo (fst (alg num true false false t ch)).
Proof.
  intros t ch X. destruct t as [k | | | b a c | | |]; cbn [expo] in X; try contradiction.
  - destruct ch; split; try apply refs_refl; exact X.
  - destruct b; try contradiction. destruct ch; [split; [apply refs_refl | exact X] |].
    destruct (analyzeAdd_xpo (Add a c) X eq_refl) as [s [S [V IE]]]. cbn [alg isAddSub andb negb]. rewrite S. cbn [fst]. split; [| exact IE].
    intros v H. rewrite V in H. exact H.
Qed.
Lemma arith_place : forall m t, isAddSub t = true \/ isMulDiv t = true -> adm m t -> adm (inner m) t.
Proof. intros m t H AT. destruct m; cbn [inner]; try exact AT. destruct t as [| | | [] | | |]; destruct H as [H | H]; try discriminate; cbn [covered inner] in *; intuition discriminate. Qed.
Lemma two_of : forall m, two (inner m). Proof. intros []; cbn; unfold two; auto. Qed.
Theorem alg_ok : forall t m pa pm ch v, adm m t -> ev t = Some v -> ev (fst (alg num true pa pm t ch)) = Some v /\ adm m (fst (alg num true pa pm t ch)).
Proof.
  induction t as [k | i | u a IHa | b a IHa c IHc | o a IHa b IHb | f a IHa b IHb c IHc | c IHc a IHa b IHb]; intros m pa pm ch v AT V;
    (destruct ch; [split; [exact V | exact AT] |]); cbn [alg];
    match goal with |- context [match ?r with Some _ => _ | None => _ end] => destruct r as [t' |] eqn:RR end;
    try (match goal with |- context [fst (?x, true)] => change (fst (x, true)) with x end;
         match type of RR with (if ?b then _ else if ?b2 then _ else _) = _ => destruct b eqn:B1;
           [apply andb_true_iff in B1; destruct B1 as [B1 _];
            destruct (analyzeAdd_ok (inner m) _ t' v (two_of m) (arith_place m _ (or_introl B1) AT) V RR) as [R1 R2]; split; [exact R1 | apply inner_le, R2]
           | destruct b2 eqn:B2; [| discriminate]; apply andb_true_iff in B2; destruct B2 as [B2 _];
             destruct (analyzeMul_ok (inner m) _ t' v (two_of m) (arith_place m _ (or_intror B2) AT) V RR) as [R1 R2]; split; [exact R1 | apply inner_le, R2]] end).
  - split; [exact V | exact AT].
  - split; [exact V | exact AT].
  - cbn [eval] in V. destruct (ev a) as [x |] eqn:X; [| discriminate].
    assert (G : forall m', adm m' a -> ev (fst (alg num true false false a false)) = Some x /\ adm m' (fst (alg num true false false a false))) by (intros m' H; apply IHa; [exact H | reflexivity]).
    destruct (alg num true false false a false) as [a' c1]. cbn [fst] in *. cbn [eval].
    destruct u; cbn [covered] in AT |- *; try (destruct (G _ AT) as [-> G2]; auto); destruct AT as [S AT]; destruct (G _ AT) as [-> G2]; auto.
  - clear RR. cbn [eval] in V. unfold bind2 in V. destruct (ev a) as [x |] eqn:X; [| discriminate]. destruct (ev c) as [y |] eqn:Y; [| discriminate].
    set (q1 := isAddSub (Bin b a c)). set (q2 := isMulDiv (Bin b a c)).
    assert (GA : forall m', adm m' a -> ev (fst (alg num true q1 q2 a false)) = Some x /\ adm m' (fst (alg num true q1 q2 a false))) by (intros m' H; apply IHa; [exact H | reflexivity]).
    assert (GC : forall m' c1, adm m' c -> ev (fst (alg num true q1 q2 c c1)) = Some y /\ adm m' (fst (alg num true q1 q2 c c1))) by (intros m' c1 H; apply IHc; [exact H | reflexivity]).
    assert (GX : forall c1, b = bPow -> xpo c -> ev (fst (alg num true q1 q2 c c1)) = Some y /\ xpo (fst (alg num true q1 q2 c c1))).
    { intros c1 -> XC. destruct (alg_xpo c c1 XC) as [Z1 Z2]. split; [apply Z1, Y | exact Z2]. }
    destruct (alg num true q1 q2 a false) as [a' c1]. specialize (fun m' => GC m' c1). specialize (GX c1). destruct (alg num true q1 q2 c c1) as [c' c2]. cbn [fst] in *.
    assert (D : ev a' = Some x /\ ev c' = Some y /\ adm m (Bin b a' c')).
    { destruct b; cbn [covered] in AT |- *.
      10: { destruct AT as [[H1 H2] | [-> [H1 H2]]]; destruct (GA _ H1) as [-> GA2]; [destruct (GC _ H2) as [-> GC2] | destruct (GX eq_refl H2) as [-> GC2]]; auto 10. }
      2: { destruct AT as [S [H1 H2]]. destruct (GA _ H1) as [-> GA2]. destruct (GC _ H2) as [-> GC2]. auto 10. }
      all: destruct AT as [H1 H2]; destruct (GA _ H1) as [-> GA2]; destruct (GC _ H2) as [-> GC2]; auto 10. }
    destruct D as [D1 [D2 D3]]. cbn [eval]. rewrite D1, D2. auto.
  - cbn [eval] in V. unfold bind2 in V. destruct (ev a) as [x |] eqn:X; [| discriminate]. destruct (ev b) as [y |] eqn:Y; [| discriminate]. destruct AT as [H1 H2].
    destruct (IHa Any false false false x H1 eq_refl) as [A1 A2]. destruct (alg num true false false a false) as [a' c1].
    destruct (IHb Any false false c1 y H2 eq_refl) as [B1 B2]. destruct (alg num true false false b c1) as [b' c2]. cbn [fst eval covered] in *. rewrite A1, B1. auto.
  - cbn [eval] in V. destruct (ev a) as [x |] eqn:X; [| discriminate]. destruct (ev b) as [y |] eqn:Y; [| discriminate]. destruct (ev c) as [z |] eqn:Z; [| discriminate]. destruct AT as [S [H1 [H2 H3]]].
    destruct (IHa Any false false false x H1 eq_refl) as [A1 A2]. destruct (alg num true false false a false) as [a' c1].
    destruct (IHb Any false false c1 y H2 eq_refl) as [B1 B2]. destruct (alg num true false false b c1) as [b' c2].
    destruct (IHc Any false false c2 z H3 eq_refl) as [C1 C2]. destruct (alg num true false false c c2) as [c' c3]. cbn [fst eval covered] in *. rewrite A1, B1, C1. auto.
  - cbn [eval] in V. destruct (ev c) as [x |] eqn:X; [| discriminate]. destruct AT as [S [H1 H2]]. rewrite X in H2.
    destruct (IHc Free false false false x H1 eq_refl) as [C1 C2]. destruct (alg num true false false c false) as [c' c1].
    pose proof (fun H => IHa m false false c1 v H) as GA. destruct (alg num true false false a c1) as [a' c2].
    pose proof (fun H => IHb m false false c2 v H) as GB. destruct (alg num true false false b c2) as [b' c3]. cbn [fst eval covered] in *. rewrite C1.
    destruct (holds x); [destruct (GA H2 V) | destruct (GB H2 V)]; auto.
Qed.
End Alg.
