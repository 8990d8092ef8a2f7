(** The passes of the first loop keep expressions covered, and the loops of compile keep the values. *)
From Coq Require Import ZArith List Bool Reals Lra Lia.
From Verif Require Import RwSyntax RwSpec RwPow Rw RwSound RwSound2 RwAlg.
Import ListNotations.
Open Scope R_scope.

Section Driver.
Context {A : arith} {den : K A -> R}.
Variable E : exact A den.
Variable rho : nat -> R.
Notation ex := (ex A).
Notation ev := (eval A den false rho).
Notation refs := (refines A den false rho).
Notation adm := (covered A den false rho).
Notation xpo := (expo A den).

Definition keeps (r : rule) : Prop := forall m t t' v, adm m t -> ev t = Some v -> r t = Some t' -> adm m t'.
Lemma runRules_keeps : forall rs m t v ch, Forall keeps rs -> Forall (sound rho (den := den)) rs -> adm m t -> ev t = Some v -> adm m (fst (runRules rs t ch)).
Proof.
  intros rs m t v ch H S. unfold runRules. revert t ch. induction H as [| r rs Hr _ IH]; intros t ch AT V; [exact AT |]. inversion S as [| ? ? S1 S2]; subst.
  cbn [fold_left]. unfold try at 2. cbn [fst]. destruct (r t) as [t' |] eqn:R; [| apply IH; assumption]. apply (IH S2); [apply (Hr m t t' v AT V R) | apply (S1 t t' R v V)].
Qed.
Lemma den1 : forall m, inM m (den (kint A 1)). Proof. intros m. rewrite (k1_den E). apply inD_1. Qed.
Lemma den0 : forall m, inM m (den (kint A 0)). Proof. intros m. rewrite (k0_den E). apply inD_0. Qed.

Ltac walk H := repeat (match type of H with context [match ?x with _ => _ end] => destruct x eqn:?; try discriminate H end).
Ltac cvs := repeat match goal with Q : isCv _ (kint A _) = true |- _ => apply (isCv_const E) in Q; destruct Q as [? [-> Q]] end.
Ltac crack H := let T := fresh "T" in let V := fresh "V" in intros m t t' v T V H; walk H; injection H as <-; cvs; cbn [covered expo] in *.
Lemma l_fold_keeps : keeps l_fold.
Proof.
  intros m t t' v AT V H. unfold l_fold in H. destruct (negb (isC t) && isConstE t)%bool eqn:C; [| discriminate]. injection H as <-. apply andb_true_iff in C. destruct C as [_ C].
  cbn [covered]. rewrite (evalC_ok E rho t v C V). apply (adm_value rho m t v AT V).
Qed.
Lemma l_right_keeps : keeps l_right. Proof. unfold l_right. crack H; intuition auto. Qed.
Lemma l_add0_keeps : keeps l_add0.
Proof. unfold l_add0. crack H; [apply inner_le, T | destruct T as [S [T _]]; destruct m; [apply any_free, T | exact T | contradiction S; reflexivity]]. Qed.
Lemma l_mul0_keeps : keeps l_mul0. Proof. unfold l_mul0. crack H; apply den0. Qed.
Lemma l_mul1_keeps : keeps l_mul1. Proof. unfold l_mul1. crack H; apply inner_le, T. Qed.
Lemma l_logexp_keeps : keeps l_logexp. Proof. unfold l_logexp. crack H; intuition auto. Qed.
Lemma l_powX0_keeps : keeps l_powX0. Proof. unfold l_powX0. crack H; apply den1. Qed.
Lemma l_powX1_keeps : keeps l_powX1.
Proof. unfold l_powX1. crack H. destruct T as [[T _] | [-> [T _]]]; [apply below_le, T | exact T]. Qed.
Lemma l_pow0X_keeps : keeps l_pow0X. Proof. unfold l_pow0X. crack H. apply den0. Qed.
Lemma l_pow1X_keeps : keeps l_pow1X. Proof. unfold l_pow1X. crack H. apply den1. Qed.
Lemma below_below : forall m, below (below m) = below m. Proof. intros []; reflexivity. Qed.
Lemma l_powpow_keeps : keeps l_powpow.
Proof.
  unfold l_powpow. intros m t t' v T V H.
  destruct t as [| | | b0 a c | | |]; try discriminate. destruct b0; try discriminate.
  destruct a as [| | | b0 a b | | |]; try discriminate. destruct b0; try discriminate.
  destruct b as [b | | | | | |]; try discriminate. destruct c as [c | | | | | |]; try discriminate.
  assert (AF : adm Free a) by (cbn [covered] in T; destruct T as [[[[T _] | [_ [T _]]] _] | [_ [[[T _] | [_ [T _]]] _]]]; eapply to_free; exact T).
  assert (R : adm m (Pow a (Const (kmul A b c)))).
  { cbn [covered expo] in *. rewrite (e_mul A den E). destruct T as [[T _] | [-> [T1 T2]]].
    - left. split; [| exact I]. rewrite below_below in T. destruct T as [[T _] | [C _]]; [exact T | destruct m; discriminate].
    - destruct T1 as [[T1 _] | [_ [T1 T3]]]; [left; split; [exact T1 | exact I] | right]. split; [reflexivity |]. split; [exact T1 |]. apply (inE_mul Any); assumption. }
  assert (R' : adm m (Pow (Abs a) (Const (kmul A b c)))) by (cbn [covered]; left; split; [exact AF | exact I]).
  destruct (_ && _ && _)%bool; injection H as <-; assumption.
Qed.
Lemma l_absabs_keeps : keeps l_absabs. Proof. unfold l_absabs. crack H; intuition auto. Qed.
Lemma l_tern_keeps : keeps l_tern.
Proof.
  unfold l_tern. intros m t t' v T V H. destruct t as [| | | | | | c a b]; try discriminate. destruct c as [k | | | | | |]; try discriminate. injection H as <-.
  cbn [covered eval] in T. destruct T as [S [_ T]]. rewrite <- (khold_holds E) in T. exact T || (unfold khold in T; destruct (klt A (kint A 0) k); exact T).
Qed.
Lemma l_ternle_keeps : keeps l_ternle.
Proof.
  unfold l_ternle. intros m t t' v T V H. destruct t as [| | | | | | c a b]; try discriminate. destruct c as [| | | | o x y | |]; try discriminate.
  cbn [covered eval] in T. destruct T as [S [C T]].
  destruct o; try discriminate; injection H as <-; cbn [covered eval]; (split; [exact S |]); (split; [exact C |]); unfold bind2 in *;
    (destruct (ev x) as [p |]; [| exact I]); (destruct (ev y) as [q |]; [| exact I]);
    [change cNLE with (flipCmp cLE) | change cLT with (flipCmp cNLT)]; rewrite csem_flip, holds_truth; destruct (holds _); exact T.
Qed.
Lemma l_ternnot_keeps : keeps l_ternnot.
Proof.
  unfold l_ternnot. intros m t t' v T V H. destruct t as [| | | | | | c a b]; try discriminate. destruct c as [| | u c | | | |]; try discriminate. destruct u; try discriminate.
  injection H as <-. cbn [covered eval] in T |- *. destruct T as [S [C T]]. split; [exact S |]. split; [exact C |]. destruct (ev c) as [x |]; [| exact I].
  cbn [usem] in T. rewrite holds_truth in T. destruct (holds x); exact T.
Qed.
Lemma l_notcmp_keeps : keeps l_notcmp. Proof. unfold l_notcmp. crack H; intuition auto. Qed.
Lemma localRules_keeps : Forall keeps localRules.
Proof.
  repeat (constructor; [auto using l_fold_keeps, l_right_keeps, l_add0_keeps, l_mul0_keeps, l_mul1_keeps, l_logexp_keeps, l_powX0_keeps, l_powX1_keeps, l_pow0X_keeps,
    l_pow1X_keeps, l_powpow_keeps, l_absabs_keeps, l_tern_keeps, l_ternle_keeps, l_ternnot_keeps, l_notcmp_keeps |]). constructor.
Qed.
Lemma local_run : forall m t v ch, adm m t -> ev t = Some v -> adm m (fst (runRules localRules t ch)).
Proof. intros m t v ch. apply runRules_keeps; [apply localRules_keeps | apply (localRules_sound E)]. Qed.
Lemma local_xpo : forall t, xpo t -> exists k, fst (localPass t) = Const k /\ exists n, den k = IZR n.
Proof.
  induction t as [k | i | u a IHa | b a IHa c IHc | o a IHa b IHb | f a IHa b IHb c IHc | c IHc a IHa b IHb]; cbn [expo]; try contradiction.
  - intros H. exists k. split; [reflexivity | exact H].
  - destruct b; try contradiction. intros [H1 H2]. destruct (IHa H1) as [j [J [n IJ]]]. destruct (IHc H2) as [k [KK [p IK]]]. cbn [localPass].
    destruct (localPass a) as [a' ca]. destruct (localPass c) as [c' cc]. cbn [fst] in *. subst a' c'. exists (kadd A j k).
    split; [reflexivity |]. rewrite (e_add A den E), IJ, IK. exists (n + p)%Z. rewrite plus_IZR. reflexivity.
Qed.
(** One step down: the operands may be replaced by others with the same values, covered in the same places. *)
Lemma un_step : forall u m a a' x, adm m (Un u a) -> ev a = Some x -> ev a' = Some x -> (forall m', adm m' a -> adm m' a') -> adm m (Un u a').
Proof. intros u m a a' x AT V V' G. destruct u; cbn [covered] in *; intuition auto. Qed.
Lemma bin_step : forall b m a c a' c', adm m (Bin b a c) -> (forall m', adm m' a -> adm m' a') -> (forall m', adm m' c -> adm m' c') -> (b = bPow -> xpo c -> xpo c') -> adm m (Bin b a' c').
Proof. intros b m a c a' c' AT GA GC GX. destruct b; cbn [covered] in *; intuition auto. Qed.
Lemma tern_step : forall m c a b c' a' b' x x', adm m (Tern c a b) -> ev c = Some x -> ev c' = Some x' -> holds x' = holds x -> (adm Free c -> adm Free c') ->
  (holds x = true -> adm m a -> adm m a') -> (holds x = false -> adm m b -> adm m b') -> adm m (Tern c' a' b').
Proof.
  intros m c a b c' a' b' x x' AT X X' H GC GA GB. cbn [covered] in *. rewrite X in AT. rewrite X', H. destruct AT as [S [C AT]]. split; [exact S |]. split; [auto |].
  destruct (holds x); auto.
Qed.
Theorem local_keeps : forall t m v, adm m t -> ev t = Some v -> adm m (fst (localPass t)).
Proof.
  induction t as [k | i | u a IHa | b a IHa c IHc | o a IHa b IHb | f a IHa b IHb c IHc | c IHc a IHa b IHb]; intros m v AT V; pose proof V as V0; cbn [localPass].
  - apply (local_run m _ v); assumption.
  - apply (local_run m _ v); assumption.
  - pose proof (refs_Un rho u a _ (local_sound E rho a) v V) as R. cbn [eval] in V. destruct (ev a) as [x |] eqn:X; [| discriminate].
    pose proof (un_step u m a (fst (localPass a)) x AT X (local_sound E rho a x X) (fun m' H => IHa m' x H eq_refl)) as G.
    destruct (localPass a) as [a' ca]. apply (local_run m _ v); assumption.
  - pose proof (refs_Bin rho b a _ c _ (local_sound E rho a) (local_sound E rho c) v V) as R. cbn [eval] in V. unfold bind2 in V. destruct (ev a) as [x |] eqn:X; [| discriminate].
    destruct (ev c) as [y |] eqn:Y; [| discriminate].
    assert (G : adm m (Bin b (fst (localPass a)) (fst (localPass c)))).
    { apply (bin_step b m a c _ _ AT); [intros m' H; apply (IHa m' x H eq_refl) | intros m' H; apply (IHc m' y H eq_refl) |].
      intros _ XC. destruct (local_xpo c XC) as [k [-> N]]. exact N. }
    destruct (localPass a) as [a' ca]. destruct (localPass c) as [c' cc]. apply (local_run m _ v); assumption.
  - pose proof (refs_Cmp rho o a _ b _ (local_sound E rho a) (local_sound E rho b) v V) as R. cbn [eval] in V. unfold bind2 in V. destruct (ev a) as [x |] eqn:X; [| discriminate].
    destruct (ev b) as [y |] eqn:Y; [| discriminate].
    assert (G : adm m (Cmp o (fst (localPass a)) (fst (localPass b)))) by (destruct AT as [H1 H2]; split; [apply (IHa Any x H1 eq_refl) | apply (IHb Any y H2 eq_refl)]).
    destruct (localPass a) as [a' ca]. destruct (localPass b) as [b' cb]. apply (local_run m _ v); assumption.
  - pose proof (refs_Fma rho f a _ b _ c _ (local_sound E rho a) (local_sound E rho b) (local_sound E rho c) v V) as R. cbn [eval] in V. destruct (ev a) as [x |] eqn:X; [| discriminate].
    destruct (ev b) as [y |] eqn:Y; [| discriminate]. destruct (ev c) as [z |] eqn:Z; [| discriminate].
    assert (G : adm m (Fma f (fst (localPass a)) (fst (localPass b)) (fst (localPass c)))).
    { destruct AT as [S [H1 [H2 H3]]]. split; [exact S |]. split; [apply (IHa Any x H1 eq_refl) |]. split; [apply (IHb Any y H2 eq_refl) | apply (IHc Any z H3 eq_refl)]. }
    destruct (localPass a) as [a' ca]. destruct (localPass b) as [b' cb]. destruct (localPass c) as [c' cc]. apply (local_run m _ v); assumption.
  - pose proof (refs_Tern rho c _ a _ b _ (local_sound E rho c) (local_sound E rho a) (local_sound E rho b) v V) as R. cbn [eval] in V. destruct (ev c) as [x |] eqn:X; [| discriminate].
    assert (G : adm m (Tern (fst (localPass c)) (fst (localPass a)) (fst (localPass b)))).
    { apply (tern_step m c a b _ _ _ x x AT X (local_sound E rho c x X) eq_refl); [intros H; apply (IHc Free x H eq_refl) | intros Q H | intros Q H]; rewrite Q in V;
        [apply (IHa m v H V) | apply (IHb m v H V)]. }
    destruct (localPass c) as [c' cc]. destruct (localPass a) as [a' ca]. destruct (localPass b) as [b' cb]. apply (local_run m _ v); assumption.
Qed.

Lemma comb_xpo : forall t, xpo t -> fst (comb t) = t.
Proof.
  induction t as [k | i | u a IHa | b a IHa c IHc | o a IHa b IHb | f a IHa b IHb c IHc | c IHc a IHa b IHb]; cbn [expo]; try contradiction; [reflexivity |].
  destruct b; try contradiction. intros [H1 H2]. cbn [comb]. specialize (IHa H1). specialize (IHc H2). destruct (comb a) as [a' oa]. destruct (comb c) as [c' oc]. cbn [fst] in *.
  subst a' c'. reflexivity.
Qed.
Lemma pow_add : forall m p q r, two m -> adm m (Pow p q) -> adm m (Pow p r) -> adm m (Pow p (Add q r)).
Proof.
  intros m p q r TW H1 H2. cbn [covered expo inner] in *. destruct H1 as [[H1 H3] | [-> [H1 H3]]], H2 as [[H2 H4] | [_ [H2 H4]]]; auto 10 using xpo_any.
Qed.
Theorem comb_keeps : forall t m v, adm m t -> ev t = Some v -> adm m (fst (comb t)).
Proof.
  induction t as [k | i | u a IHa | b a IHa c IHc | o a IHa b IHb | f a IHa b IHb c IHc | c IHc a IHa b IHb]; intros m v AT V; cbn [comb].
  - exact AT.
  - exact AT.
  - cbn [eval] in V. destruct (ev a) as [x |] eqn:X; [| discriminate]. destruct (comb_sound E rho a) as [S _].
    pose proof (un_step u m a (fst (comb a)) x AT X (S x X) (fun m' H => IHa m' x H eq_refl)) as G. destruct (comb a) as [a' oa]. cbn [fst] in *.
    destruct u; cbn [fst]; try exact G. cbn [covered] in *. left. split; [exact G | exact I].
  - cbn [eval] in V. unfold bind2 in V. destruct (ev a) as [x |] eqn:X; [| discriminate]. destruct (ev c) as [y |] eqn:Y; [| discriminate].
    destruct (comb_sound E rho a) as [_ Ba]. destruct (comb_sound E rho c) as [_ Bc].
    assert (GA : forall m', adm m' a -> adm m' (fst (comb a))) by (intros m' H; apply (IHa m' x H eq_refl)).
    assert (GC : forall m', adm m' c -> adm m' (fst (comb c))) by (intros m' H; apply (IHc m' y H eq_refl)).
    assert (G : adm m (Bin b (fst (comb a)) (fst (comb c)))).
    { apply (bin_step b m a c _ _ AT GA GC). intros _ XC. rewrite (comb_xpo c XC). exact XC. }
    destruct (comb a) as [a' oa] eqn:CA. destruct (comb c) as [c' oc] eqn:CC. cbn [fst] in *.
    destruct b; try exact G. cbn [covered] in AT. destruct AT as [H1 H2]. specialize (GA _ H1). specialize (GC _ H2). destruct a' as [| | | [] p q | | |]; try exact G. destruct (opteq oa c) eqn:O1.
    + cbn [fst]. destruct oa as [o |]; [| discriminate]. apply exeq_true in O1. subst o. unfold baseOK in Ba. cbn [snd fst] in Ba. destruct Ba as [q' [EQ _]]. rewrite CC in EQ. cbn [fst] in EQ.
      injection EQ as -> _. apply inner_le. apply pow_add; [apply two_of | exact GA |]. cbn [covered expo].
      destruct m; cbn [inner below] in *; [right | right | left; split; [exact GC | exact I]]; (split; [reflexivity |]); (split; [exact GC |]); exists 1%Z; apply (e_int A den E).
    + destruct c' as [| | | [] p2 r | | |]; try exact G. destruct (opteq2 oa oc) eqn:O2; [| exact G]. cbn [fst].
      destruct oa as [o |]; [| discriminate]. destruct oc as [o' |]; [| discriminate]. apply exeq_true in O2. subst o'.
      unfold baseOK in Ba, Bc. cbn [snd fst] in Ba, Bc. destruct Ba as [q' [EQ _]]. injection EQ as EP <-. destruct Bc as [q' [EQ _]]. injection EQ as EP2 <-. rewrite <- EP in EP2. subst p2.
      apply inner_le. apply pow_add; [apply two_of | exact GA | exact GC].
  - cbn [eval] in V. unfold bind2 in V. destruct (ev a) as [x |] eqn:X; [| discriminate]. destruct (ev b) as [y |] eqn:Y; [| discriminate].
    destruct AT as [H1 H2]. split; [apply (IHa Any x H1 eq_refl) | apply (IHb Any y H2 eq_refl)].
  - cbn [eval] in V. destruct (ev a) as [x |] eqn:X; [| discriminate]. destruct (ev b) as [y |] eqn:Y; [| discriminate]. destruct (ev c) as [z |] eqn:Z; [| discriminate].
    destruct AT as [S [H1 [H2 H3]]]. split; [exact S |]. split; [apply (IHa Any x H1 eq_refl) |]. split; [apply (IHb Any y H2 eq_refl) | apply (IHc Any z H3 eq_refl)].
  - cbn [eval] in V. destruct (ev c) as [x |] eqn:X; [| discriminate]. destruct (comb_sound E rho c) as [S _]. cbn [fst].
    apply (tern_step m c a b _ _ _ x x AT X (S x X) eq_refl); [intros H; apply (IHc Free x H eq_refl) | intros Q H | intros Q H]; rewrite Q in V;
        [apply (IHa m v H V) | apply (IHb m v H V)].
Qed.

Lemma cmpRule_keeps : forall cond m t t' v, (cond = true -> m = Free) -> adm m t -> ev t = Some v -> cmpRule cond t = Some t' -> adm m t'.
Proof.
  intros cond m t t' v CM T V H. unfold cmpRule in H. destruct t as [| | | | c a b | | c a b]; try discriminate.
  - destruct T as [H1 H2]. destruct (exeq a b).
    + injection H as <-. cbn [covered]. destruct c; (apply den1 || apply den0).
    + destruct cond; [| discriminate]. rewrite (CM eq_refl). destruct c; try discriminate; injection H as <-; (split; [discriminate | split; assumption]).
  - destruct T as [S [H1 H2]]. destruct (exeq a b) eqn:Q.
    + injection H as <-. apply exeq_true in Q. subst b. cbn [eval] in V. destruct (ev c) as [x |]; [| discriminate]. destruct (holds x); exact H2.
    + destruct c as [| | | | o x y | |]; try discriminate. destruct H1 as [X Y].
      assert (G : forall q, adm m (Bin (if q : bool then bMin else bMax) x y)).
      { intros q. assert (O : outer m = Free) by (destruct m; [reflexivity | reflexivity | contradiction S; reflexivity]).
        destruct q; cbn [covered]; rewrite O; split; apply any_free; assumption. }
      cbv zeta in H. destruct o; try discriminate; (destruct (_ || _)%bool; [| discriminate]); injection H as <-; apply G.
Qed.
Lemma cmp_xpo : forall t cond, xpo t -> fst (cmpPass cond t) = t.
Proof.
  induction t as [k | i | u a IHa | b a IHa c IHc | o a IHa b IHb | f a IHa b IHb c IHc | c IHc a IHa b IHb]; intros cond; cbn [expo]; try contradiction; [reflexivity |].
  destruct b; try contradiction. intros [H1 H2]. cbn [cmpPass cmpRule isBool]. specialize (IHa false H1). specialize (IHc false H2). destruct (cmpPass false a) as [a' oa].
  destruct (cmpPass false c) as [c' oc]. cbn [fst] in *. subst a' c'. reflexivity.
Qed.
Theorem cmp_keeps : forall t cond m v, (cond = true -> m = Free) -> adm m t -> ev t = Some v -> adm m (fst (cmpPass cond t)).
Proof.
  induction t as [k | i | u a IHa | b a IHa c IHc | o a IHa b IHb | f a IHa b IHb c IHc | c IHc a IHa b IHb]; intros cond m v CM AT V; cbn [cmpPass];
    (match goal with |- context [cmpRule cond ?t] => destruct (cmpRule cond t) as [t' |] eqn:R end; [apply (cmpRule_keeps cond m _ t' v CM AT V R) |]); clear R.
  - exact AT.
  - exact AT.
  - cbn [eval] in V. destruct (ev a) as [x |] eqn:X; [| discriminate].
    pose proof (un_step u m a (fst (cmpPass false a)) x AT X (cmp_sound E rho a x X) (fun m' H => IHa false m' x ltac:(discriminate) H eq_refl)) as G.
    destruct (cmpPass false a) as [a' ca]. exact G.
  - cbn [eval] in V. unfold bind2 in V. destruct (ev a) as [x |] eqn:X; [| discriminate]. destruct (ev c) as [y |] eqn:Y; [| discriminate].
    assert (G : adm m (Bin b (fst (cmpPass (isBool b) a)) (fst (cmpPass (isBool b) c)))).
    { destruct (isBool b) eqn:B.
      - assert (GA : adm Free a -> adm Free (fst (cmpPass true a))) by (intros H; apply (IHa true Free x (fun _ => eq_refl) H eq_refl)).
        assert (GC : adm Free c -> adm Free (fst (cmpPass true c))) by (intros H; apply (IHc true Free y (fun _ => eq_refl) H eq_refl)).
        destruct b; try discriminate; cbn [covered] in *; intuition auto.
      - apply (bin_step b m a c _ _ AT); [intros m' H; apply (IHa false m' x ltac:(discriminate) H eq_refl) | intros m' H; apply (IHc false m' y ltac:(discriminate) H eq_refl) |].
        intros _ XC. rewrite (cmp_xpo c false XC). exact XC. }
    destruct (cmpPass (isBool b) a) as [a' ca]. destruct (cmpPass (isBool b) c) as [c' cc]. exact G.
  - cbn [eval] in V. unfold bind2 in V. destruct (ev a) as [x |] eqn:X; [| discriminate]. destruct (ev b) as [y |] eqn:Y; [| discriminate].
    assert (G : adm m (Cmp o (fst (cmpPass false a)) (fst (cmpPass false b)))).
    { destruct AT as [H1 H2]; split; [apply (IHa false Any x ltac:(discriminate) H1 eq_refl) | apply (IHb false Any y ltac:(discriminate) H2 eq_refl)]. }
    destruct (cmpPass false a) as [a' ca]. destruct (cmpPass false b) as [b' cb]. exact G.
  - cbn [eval] in V. destruct (ev a) as [x |] eqn:X; [| discriminate]. destruct (ev b) as [y |] eqn:Y; [| discriminate]. destruct (ev c) as [z |] eqn:Z; [| discriminate].
    assert (G : adm m (Fma f (fst (cmpPass false a)) (fst (cmpPass false b)) (fst (cmpPass false c)))).
    { destruct AT as [S [H1 [H2 H3]]]. split; [exact S |]. split; [apply (IHa false Any x ltac:(discriminate) H1 eq_refl) |].
      split; [apply (IHb false Any y ltac:(discriminate) H2 eq_refl) | apply (IHc false Any z ltac:(discriminate) H3 eq_refl)]. }
    destruct (cmpPass false a) as [a' ca]. destruct (cmpPass false b) as [b' cb]. destruct (cmpPass false c) as [c' cc]. exact G.
  - cbn [eval] in V. destruct (ev c) as [x |] eqn:X; [| discriminate].
    assert (G : adm m (Tern (fst (cmpPass true c)) (fst (cmpPass false a)) (fst (cmpPass false b)))).
    { destruct (cmp_soundC E rho c true x X) as [x' [X' EX]].
      apply (tern_step m c a b _ _ _ x x' AT X X' EX); [intros H; apply (IHc true Free x (fun _ => eq_refl) H eq_refl) | intros Q H | intros Q H]; rewrite Q in V;
        [apply (IHa false m v ltac:(discriminate) H V) | apply (IHb false m v ltac:(discriminate) H V)]. }
    destruct (cmpPass true c) as [c' cc]. destruct (cmpPass false a) as [a' ca]. destruct (cmpPass false b) as [b' cb]. exact G.
Qed.

(** The loops. *)
Lemma first_good : forall m t v, adm m t -> ev t = Some v -> ev (fst (first true t)) = Some v /\ adm m (fst (first true t)).
Proof.
  intros m t v AT V. unfold first. pose proof (local_sound E rho t v V) as L1. pose proof (local_keeps t m v AT V) as L2. destruct (localPass t) as [t1 c1]. cbn [fst] in *.
  destruct c1; [split; assumption |]. destruct (comb_sound E rho t1) as [C1 _]. specialize (C1 v L1). pose proof (comb_keeps t1 m v L2 L1) as C2.
  destruct (alg_ok E rho (fun u => indexOf u (subs (fst (comb t1)))) (fst (comb t1)) m false false false v C2 C1) as [A1 A2]. cbv zeta.
  unfold algPass. destruct (alg _ true false false (fst (comb t1)) false) as [t3 c3]. cbn [fst] in *.
  destruct c3; [split; assumption |]. split; [apply (cmp_sound E), A1 |]. apply (cmp_keeps t3 false m v); [discriminate | exact A2 | exact A1].
Qed.
Lemma loop_first : forall fuel m t t' f v, adm m t -> ev t = Some v -> loop (first true) fuel t = Some (t', f) -> ev t' = Some v /\ adm m t'.
Proof.
  induction fuel as [| n IH]; intros m t t' f v AT V H; cbn [loop] in H; destruct (first_good m t v AT V) as [G1 G2]; destruct (first true t) as [t1 ch]; cbn [fst] in *; destruct ch; try discriminate.
  - injection H as <- <-. auto.
  - apply (IH m t1 t' f v G2 G1 H).
  - injection H as <- <-. auto.
Qed.
(** The second loop needs nothing. *)
Lemma second_sound : forall t, refs t (fst (second t)).
Proof.
  intros t. unfold second. pose proof (local_sound E rho t) as L1. destruct (localPass t) as [t1 c1]. cbn [fst] in *. destruct c1; [exact L1 |].
  pose proof (strength_sound E rho t1 false) as S1. destruct (strength false t1) as [t2 c2]. cbn [fst] in *.
  assert (R2 : refs t t2) by (eapply refs_trans; eassumption). destruct c2; [exact R2 |]. unfold fusionPass. eapply refs_trans; [exact R2 | apply (fusion_sound E)].
Qed.
Lemma loop_second : forall fuel t t' f, loop second fuel t = Some (t', f) -> refs t t'.
Proof.
  induction fuel as [| n IH]; intros t t' f H; cbn [loop] in H; pose proof (second_sound t) as G1; destruct (second t) as [t1 ch]; cbn [fst] in *; destruct ch; try discriminate.
  - injection H as <- <-. exact G1.
  - eapply refs_trans; [exact G1 | apply (IH t1 t' f H)].
  - injection H as <- <-. exact G1.
Qed.
Theorem optimise_ok : forall t t', adm Free t -> optimise true t = Some t' -> refs t t'.
Proof.
  intros t t' AT H v V. unfold optimise in H. destruct (loop (first true) maxPasses t) as [[t1 f1] |] eqn:L1; [| discriminate].
  destruct (loop second f1 t1) as [[t2 f2] |] eqn:L2; [| discriminate]. injection H as <-.
  destruct (loop_first _ _ _ _ _ v AT V L1) as [R1 _]. apply (loop_second _ _ _ _ L2 v R1).
Qed.
End Driver.
