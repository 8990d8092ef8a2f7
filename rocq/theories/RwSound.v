(** The passes other than the algebraic one keep values. *)
From Coq Require Import ZArith List Bool Reals Lra Lia.
From Verif Require Import RwSyntax RwSpec RwPow Rw.
Import ListNotations.
Open Scope R_scope.

Section Sound.
Context {A : arith} {den : K A -> R}.
Variable E : exact A den.
Variable rho : nat -> R.
Notation ex := (ex A).
Notation ev := (eval A den false rho).
Notation refs := (refines A den false rho).

Lemma refs_refl : forall t, refs t t. Proof. intros t v H. exact H. Qed.
Lemma refs_trans : forall a b c, refs a b -> refs b c -> refs a c. Proof. intros a b c H1 H2 v H. apply H2, H1, H. Qed.
Lemma refs_Un : forall u a a', refs a a' -> refs (Un u a) (Un u a').
Proof. intros u a a' H v. cbn [eval]. destruct (ev a) as [x |] eqn:X; [| discriminate]. rewrite (H x X). auto. Qed.
Lemma refs_Bin : forall b a a' c c', refs a a' -> refs c c' -> refs (Bin b a c) (Bin b a' c').
Proof.
  intros b a a' c c' H1 H2 v. cbn [eval]. unfold bind2. destruct (ev a) as [x |] eqn:X; [| discriminate].
  destruct (ev c) as [y |] eqn:Y; [| discriminate]. rewrite (H1 x X), (H2 y Y). auto.
Qed.
Lemma refs_Cmp : forall o a a' b b', refs a a' -> refs b b' -> refs (Cmp o a b) (Cmp o a' b').
Proof.
  intros b a a' c c' H1 H2 v. cbn [eval]. unfold bind2. destruct (ev a) as [x |] eqn:X; [| discriminate].
  destruct (ev c) as [y |] eqn:Y; [| discriminate]. rewrite (H1 x X), (H2 y Y). auto.
Qed.
Lemma refs_Fma : forall f a a' b b' c c', refs a a' -> refs b b' -> refs c c' -> refs (Fma f a b c) (Fma f a' b' c').
Proof.
  intros f a a' b b' c c' H1 H2 H3 v. cbn [eval]. destruct (ev a) as [x |] eqn:X; [| discriminate].
  destruct (ev b) as [y |] eqn:Y; [| discriminate]. destruct (ev c) as [w |] eqn:W; [| discriminate].
  rewrite (H1 x X), (H2 y Y), (H3 w W). auto.
Qed.
Lemma refs_Tern : forall c c' a a' b b', refs c c' -> refs a a' -> refs b b' -> refs (Tern c a b) (Tern c' a' b').
Proof.
  intros c c' a a' b b' H1 H2 H3 v. cbn [eval]. destruct (ev c) as [x |] eqn:X; [| discriminate]. rewrite (H1 x X).
  destruct (holds x); auto.
Qed.

Lemma keq_den : forall a b, keq A a b = true -> den a = den b. Proof. intros a b H. apply (e_eq A den E), H. Qed.
Lemma keq_refl : forall a, keq A a a = true. Proof. intros a. apply (e_eq A den E). reflexivity. Qed.
Lemma keq_false : forall a b, keq A a b = false -> den a <> den b.
Proof. intros a b H C. apply (e_eq A den E) in C. congruence. Qed.
Lemma klt_false : forall a b, klt A a b = false -> den b <= den a.
Proof. intros a b H. apply Rnot_lt_le. intros C. apply (e_lt A den E) in C. congruence. Qed.
Lemma isCv_const : forall t n, isCv t (kint A n) = true -> exists k, t = Const k /\ den k = IZR n.
Proof.
  intros t n H. destruct t; try discriminate. cbn in H. apply keq_den in H. rewrite (e_int A den E) in H. eauto.
Qed.
Lemma khold_holds : forall x, khold x = holds (den x).
Proof.
  intros x. unfold khold, holds. destruct (klt A (kint A 0) x) eqn:L.
  - apply (e_lt A den E) in L. rewrite (e_int A den E) in L. destruct (Rlt_dec 0 (den x)); [reflexivity | lra].
  - apply klt_false in L. rewrite (e_int A den E) in L. destruct (Rlt_dec 0 (den x)); [lra | reflexivity].
Qed.
Lemma kbool_truth : forall b, den (kbool b : K A) = truth b.
Proof. intros []; cbn; apply (e_int A den E). Qed.
Lemma kle_den : forall a b, kle a b = true <-> den a <= den b.
Proof.
  intros a b. unfold kle. rewrite orb_true_iff, (e_lt A den E), (e_eq A den E). split; [intros [H | H]; lra | intros [H | H]; auto].
Qed.

(** Constant folding. *)
Lemma evalC_ok : forall t v, isConstE t = true -> ev t = Some v -> den (evalC t) = v.
Proof.
  induction t as [k | i | u a IHa | b a IHa c IHc | o a IHa b IHb | f a IHa b IHb c IHc | c IHc a IHa b IHb]; intros v C H; cbn [isConstE] in C.
  - injection H as <-. reflexivity.
  - discriminate.
  - cbn [eval] in H. destruct (ev a) as [x |] eqn:X; [| discriminate]. specialize (IHa x C eq_refl).
    destruct u; cbn [evalC]; try (apply (e_fun A den E); rewrite IHa; exact H); cbn in H; injection H as <-.
    + rewrite (e_abs A den E), IHa. reflexivity.
    + rewrite (e_neg A den E), IHa. reflexivity.
    + rewrite kbool_truth, khold_holds, IHa. reflexivity.
  - apply andb_true_iff in C. destruct C as [C1 C2]. cbn [eval] in H. unfold bind2 in H.
    destruct (ev a) as [x |] eqn:X; [| discriminate]. destruct (ev c) as [y |] eqn:Y; [| discriminate].
    specialize (IHa x C1 eq_refl). specialize (IHc y C2 eq_refl).
    destruct b; cbn [evalC]; cbn [bsem] in H; try (injection H as <-).
    + rewrite (e_add A den E), IHa, IHc. reflexivity.
    + rewrite (e_sub A den E), IHa, IHc. reflexivity.
    + rewrite (e_mul A den E), IHa, IHc. reflexivity.
    + destruct (Req_EM_T y 0); [discriminate |]. injection H as <-. rewrite (e_div A den E) by (rewrite IHc; assumption). rewrite IHa, IHc. reflexivity.
    + unfold Rmax. destruct (klt A (evalC a) (evalC c)) eqn:L; [apply (e_lt A den E) in L | apply klt_false in L]; rewrite IHa, IHc in L;
        destruct (Rle_dec x y); try assumption; lra.
    + unfold Rmin. destruct (klt A (evalC c) (evalC a)) eqn:L; [apply (e_lt A den E) in L | apply klt_false in L]; rewrite IHa, IHc in L;
        destruct (Rle_dec x y); try assumption; lra.
    + rewrite kbool_truth, !khold_holds, IHa, IHc. reflexivity.
    + rewrite kbool_truth, !khold_holds, IHa, IHc. reflexivity.
    + rewrite kbool_truth, !khold_holds, IHa, IHc. reflexivity.
    + apply (e_pow A den E). rewrite IHa, IHc. exact H.
  - apply andb_true_iff in C. destruct C as [C1 C2]. cbn [eval] in H. unfold bind2 in H.
    destruct (ev a) as [x |] eqn:X; [| discriminate]. destruct (ev b) as [y |] eqn:Y; [| discriminate].
    specialize (IHa x C1 eq_refl). specialize (IHb y C2 eq_refl). injection H as <-. cbn [evalC]. rewrite kbool_truth.
    assert (EQ : keq A (evalC a) (evalC b) = if Req_EM_T x y then true else false).
    { destruct (keq A (evalC a) (evalC b)) eqn:Q; [apply keq_den in Q | apply keq_false in Q]; rewrite IHa, IHb in Q; destruct (Req_EM_T x y); congruence. }
    assert (LT : forall p q P Q, den p = P -> den q = Q -> klt A p q = if Rlt_dec P Q then true else false).
    { intros p q P Q <- <-. destruct (klt A p q) eqn:L; [apply (e_lt A den E) in L | apply klt_false in L]; destruct (Rlt_dec (den p) (den q)); lra || reflexivity. }
    assert (LE : forall p q P Q, den p = P -> den q = Q -> kle p q = if Rle_dec P Q then true else false).
    { intros p q P Q <- <-. destruct (kle p q) eqn:L.
      - apply kle_den in L. destruct (Rle_dec (den p) (den q)); lra || reflexivity.
      - destruct (Rle_dec (den p) (den q)) as [Q |]; [| reflexivity]. apply kle_den in Q. congruence. }
    destruct o; cbn [csem]; rewrite ?EQ, ?(LT _ _ _ _ IHa IHb), ?(LT _ _ _ _ IHb IHa), ?(LE _ _ _ _ IHa IHb), ?(LE _ _ _ _ IHb IHa).
    + destruct (Req_EM_T x y); reflexivity.
    + destruct (Rlt_dec x y); reflexivity.
    + destruct (Rle_dec x y); reflexivity.
    + destruct (Req_EM_T x y); reflexivity.
    + destruct (Rle_dec y x), (Rlt_dec x y); lra || reflexivity.
    + destruct (Rlt_dec y x), (Rle_dec x y); lra || reflexivity.
  - apply andb_true_iff in C. destruct C as [C1 C2]. apply andb_true_iff in C2. destruct C2 as [C2 C3]. cbn [eval] in H.
    destruct (ev a) as [x |] eqn:X; [| discriminate]. destruct (ev b) as [y |] eqn:Y; [| discriminate]. destruct (ev c) as [w |] eqn:W; [| discriminate].
    specialize (IHa x C1 eq_refl). specialize (IHb y C2 eq_refl). specialize (IHc w C3 eq_refl). injection H as <-.
    destruct f; cbn [evalC fsem]; rewrite ?(e_add A den E), ?(e_sub A den E), ?(e_neg A den E), ?(e_mul A den E), IHa, IHb, IHc; reflexivity.
  - apply andb_true_iff in C. destruct C as [C1 C2]. apply andb_true_iff in C2. destruct C2 as [C2 C3]. cbn [eval] in H. cbn [evalC].
    destruct (ev c) as [x |] eqn:X; [| discriminate]. specialize (IHc x C1 eq_refl). rewrite khold_holds, IHc.
    destruct (holds x); [apply IHa | apply IHb]; assumption.
Qed.

(** Sequences of rules. *)
Definition sound (r : rule) : Prop := forall t t', r t = Some t' -> refs t t'.
Lemma runRules_sound : forall rs t ch, Forall sound rs -> refs t (fst (runRules rs t ch)).
Proof.
  intros rs t ch H. unfold runRules. revert t ch. induction H as [| r rs Hr _ IH]; intros t ch; [apply refs_refl |].
  cbn [fold_left]. unfold try at 2. cbn [fst]. destruct (r t) as [t' |] eqn:R; [| apply IH].
  eapply refs_trans; [apply (Hr t t' R) | apply IH].
Qed.

Ltac evs := unfold refines; cbn [eval]; unfold bind2; cbn [bsem usem].
Ltac dx a X := let x := fresh "x" in destruct (eval A den false rho a) as [x |] eqn:X; try discriminate.
Ltac cv H := match type of H with (if isCv ?b (kint A ?n) then _ else _) = _ =>
   let Q := fresh "Q" in let k := fresh "k" in destruct (isCv b (kint A n)) eqn:Q; [| discriminate]; apply isCv_const in Q; destruct Q as [k [-> Q]]; injection H as <- end.

Lemma l_fold_sound : sound l_fold.
Proof.
  intros t t'. unfold l_fold. destruct (negb (isC t) && isConstE t) eqn:C; [| discriminate]. intros [= <-] v H.
  apply andb_true_iff in C. cbn [eval]. f_equal. apply evalC_ok; [apply C | exact H].
Qed.
Lemma l_right_sound : sound l_right.
Proof.
  intros t t'. unfold l_right. destruct t as [| | | [] a b | | |]; try discriminate; destruct (isC a && negb (isC b)); try discriminate; intros [= <-]; evs;
    intros v; dx a X; dx b Y; intros [= <-]; f_equal; ring.
Qed.
Lemma l_add0_sound : sound l_add0.
Proof. intros t t' H. destruct t as [| | | [] a b | | |]; try discriminate; cbn in H; cv H; evs; intros v; dx a X; rewrite Q; intros [= <-]; f_equal; ring. Qed.
Lemma l_mul0_sound : sound l_mul0.
Proof.
  intros t t' H. destruct t as [| | | [] a b | | |]; try discriminate; cbn in H; cv H; evs; intros v; rewrite (e_int A den E).
  - dx a X. rewrite Q. intros [= <-]. f_equal. ring.
  - dx b X. destruct (Req_EM_T x 0); [discriminate |]. rewrite Q. intros [= <-]. f_equal. field. assumption.
Qed.
Lemma l_mul1_sound : sound l_mul1.
Proof.
  intros t t' H. destruct t as [| | | [] a b | | |]; try discriminate; cbn in H; cv H; evs; intros v; dx a X; rewrite Q.
  - intros [= <-]. f_equal. ring.
  - destruct (Req_EM_T 1 0); [discriminate |]. intros [= <-]. f_equal. field.
Qed.
Lemma l_logexp_sound : sound l_logexp.
Proof.
  intros t t' H. destruct t as [| | [] a | | | |]; try discriminate; cbn in H; destruct a as [| | [] a | | | |]; try discriminate; injection H as <-; evs;
    intros v; dx a X.
  - destruct (Rlt_dec 0 x); [| discriminate]. intros [= <-]. rewrite exp_ln by assumption. reflexivity.
  - destruct (Rlt_dec 0 (exp x)); [| discriminate]. intros [= <-]. rewrite ln_exp. reflexivity.
Qed.
Lemma l_powX0_sound : sound l_powX0.
Proof.
  intros t t' H. destruct t as [| | | [] a b | | |]; try discriminate; cbn in H; cv H; evs; intros v; rewrite (e_int A den E); dx a X; rewrite Q.
  intros P. apply rpow_exp0 in P. rewrite P. reflexivity.
Qed.
Lemma l_powX1_sound : sound l_powX1.
Proof.
  intros t t' H. destruct t as [| | | [] a b | | |]; try discriminate; cbn in H; cv H; evs; intros v; dx a X; rewrite Q, rpow_1. auto.
Qed.
Lemma l_pow0X_sound : sound l_pow0X.
Proof.
  intros t t' H. destruct t as [| | | [] a b | | |]; try discriminate; cbn in H; cv H; evs; intros v; rewrite (e_int A den E); dx b X; rewrite Q.
  intros P. apply rpow_0base in P. rewrite P. reflexivity.
Qed.
Lemma l_pow1X_sound : sound l_pow1X.
Proof.
  intros t t' H. destruct t as [| | | [] a b | | |]; try discriminate; cbn in H; cv H; evs; intros v; rewrite (e_int A den E); dx b X; rewrite Q, rpow_one_base. auto.
Qed.
Lemma l_powpow_sound : sound l_powpow.
Proof.
  intros t t' H. destruct t as [| | | [] [| | | [] a [b | | | | | |] | | |] [c | | | | | |] | | |]; try discriminate. cbn in H.
  destruct (kisint A b && Z.even (ktoint A b) && negb (kisint A c)) eqn:C; injection H as <-; evs; intros v; dx a X;
    (destruct (rpow false x (den b)) as [y |] eqn:Y; [| discriminate]); intros P; rewrite (e_mul A den E).
  - rewrite !andb_true_iff in C. destruct C as [[C1 C2] _]. apply (e_isint A den E) in C1. destruct C1 as [n N].
    rewrite (e_toint A den E _ _ N) in C2. rewrite N in *. eapply rpow_mul_abs; [exact Y | exact C2 | exact P].
  - eapply rpow_mul_gen; [exact Y | exact P |].
    destruct (Rle_or_lt 0 x) as [S | S]; [auto | right].
    destruct (rpow_cases _ _ _ Y) as [[Q _] | [[Q _] | [_ [n [N _]]]]]; [lra | lra |].
    assert (C1 : kisint A b = true) by (apply (e_isint A den E); eauto).
    rewrite C1, (e_toint A den E _ _ N) in C. cbn in C. destruct (Z.even n) eqn:EV; [| right; eauto].
    cbn in C. apply negb_false_iff in C. apply (e_isint A den E) in C. left. exact C.
Qed.
Lemma l_absabs_sound : sound l_absabs.
Proof.
  intros t t' H. destruct t as [| | [] [| | [] a | | | |] | | | |]; try discriminate. cbn in H. injection H as <-. evs. intros v. dx a X.
  rewrite Rabs_Rabsolu. auto.
Qed.
Lemma l_tern_sound : sound l_tern.
Proof.
  intros t t' H. destruct t as [| | | | | | [k | | | | | |] a b]; try discriminate. injection H as <-. evs. intros v. rewrite <- khold_holds. unfold khold.
  destruct (klt A (kint A 0) k); auto.
Qed.
Lemma holds1 : holds 1 = true. Proof. unfold holds. destruct (Rlt_dec 0 1); [reflexivity | lra]. Qed.
Lemma holds0 : holds 0 = false. Proof. unfold holds. destruct (Rlt_dec 0 0); [lra | reflexivity]. Qed.
Lemma holds_truth : forall b, holds (truth b) = b. Proof. intros []; [apply holds1 | apply holds0]. Qed.
Lemma csem_flip : forall c x y, csem (flipCmp c) x y = truth (negb (holds (csem c x y))).
Proof.
  intros c x y. destruct c; cbn; try destruct (Req_EM_T x y); try destruct (Rlt_dec x y); try destruct (Rle_dec x y); rewrite ?holds1, ?holds0; reflexivity.
Qed.
Lemma l_ternle_sound : sound l_ternle.
Proof.
  intros t t' H. destruct t as [| | | | | | [| | | | o x y | |] a b]; try discriminate. destruct o; try discriminate; injection H as <-; evs; intros v;
    dx x X; dx y Y.
  - pose proof (csem_flip cLE x0 x1) as F. cbn [flipCmp] in F. rewrite F, holds_truth. destruct (holds _); auto.
  - pose proof (csem_flip cNLT x0 x1) as F. cbn [flipCmp] in F. rewrite F, holds_truth. destruct (holds _); auto.
Qed.
Lemma l_ternnot_sound : sound l_ternnot.
Proof.
  intros t t' H. destruct t as [| | | | | | [| | [] c | | | |] a b]; try discriminate. injection H as <-. evs. intros v. dx c X. rewrite holds_truth.
  destruct (holds x); auto.
Qed.
Lemma l_notcmp_sound : sound l_notcmp.
Proof.
  intros t t' H. destruct t as [| | [] [| | | | o a b | |] | | | |]; try discriminate. injection H as <-. evs. intros v. dx a X. dx b Y.
  rewrite csem_flip. auto.
Qed.
Lemma localRules_sound : Forall sound localRules.
Proof.
  repeat constructor.
  - apply l_fold_sound.
  - apply l_right_sound.
  - apply l_add0_sound.
  - apply l_mul0_sound.
  - apply l_mul1_sound.
  - apply l_logexp_sound.
  - apply l_powX0_sound.
  - apply l_powX1_sound.
  - apply l_pow0X_sound.
  - apply l_pow1X_sound.
  - apply l_powpow_sound.
  - apply l_absabs_sound.
  - apply l_tern_sound.
  - apply l_ternle_sound.
  - apply l_ternnot_sound.
  - apply l_notcmp_sound.
Qed.
Theorem local_sound : forall t, refs t (fst (localPass t)).
Proof.
  induction t as [k | i | u a IHa | b a IHa c IHc | o a IHa b IHb | f a IHa b IHb c IHc | c IHc a IHa b IHb]; cbn [localPass];
    repeat match goal with |- context [localPass ?x] => let p := fresh "p" in destruct (localPass x) as [p ?] end; cbn [fst] in *;
    (eapply refs_trans; [| apply runRules_sound, localRules_sound]).
  - apply refs_refl.
  - apply refs_refl.
  - apply refs_Un; assumption.
  - apply refs_Bin; assumption.
  - apply refs_Cmp; assumption.
  - apply refs_Fma; assumption.
  - apply refs_Tern; assumption.
Qed.
End Sound.
