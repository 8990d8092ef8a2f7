(** Combination of powers, comparisons, strength reduction and fusion keep values. *)
From Coq Require Import ZArith List Bool Reals Lra Lia.
From Verif Require Import RwSyntax RwSpec RwPow Rw RwSound.
Import ListNotations.
Open Scope R_scope.

Lemma exeq_true : forall {A} (a b : ex A), exeq a b = true <-> a = b.
Proof. intros A a b. unfold exeq. destruct (ex_dec a b); split; congruence. Qed.
Lemma exeq_refl : forall {A} (a : ex A), exeq a a = true. Proof. intros. apply exeq_true. reflexivity. Qed.

Section Sound2.
Context {A : arith} {den : K A -> R}.
Variable E : exact A den.
Variable rho : nat -> R.
Notation ex := (ex A).
Notation ev := (eval A den false rho).
Notation refs := (refines A den false rho).
Ltac evs := unfold refines; cbn [eval]; unfold bind2; cbn [bsem usem].
Ltac dx a X := let x := fresh "x" in destruct (eval A den false rho a) as [x |] eqn:X; try discriminate.
Ltac cvn H n := match type of H with context [isCv ?b (kint A n)] =>
   let Q := fresh "Q" in let k := fresh "k" in destruct (isCv b (kint A n)) eqn:Q; [| discriminate]; apply (isCv_const E) in Q; destruct Q as [k [-> Q]] end.
Ltac cv H n := cvn H n; injection H as <-.

(** combinePowerTerms *)
Definition baseOK (r : ex * option ex) : Prop := match snd r with Some o => exists q, fst r = Pow (fst (comb o)) q /\ refs o (fst (comb o)) | None => True end.
Lemma comb_sound : forall t, refs t (fst (comb t)) /\ baseOK (comb t).
Proof.
  induction t as [k | i | u a IHa | b a IHa c IHc | o a IHa b IHb | f a IHa b IHb c IHc | c IHc a IHa b IHb]; cbn [comb].
  - split; [apply refs_refl | exact I].
  - split; [apply refs_refl | exact I].
  - destruct (comb a) as [a' oa] eqn:CA. cbn [fst] in IHa. destruct IHa as [IHa _].
    destruct u; try (split; [apply refs_Un, IHa | exact I]).
    split; [| exists (Const (khalf A)); rewrite CA; auto]. cbn [fst]. evs. intros v. dx a X. rewrite (IHa x X), (e_half A den E).
    destruct (Rle_dec 0 x); [| discriminate]. rewrite rpow_sqrt by assumption. auto.
  - destruct (comb a) as [a' oa] eqn:CA. destruct (comb c) as [c' oc] eqn:CC. cbn [fst] in *. destruct IHa as [IHa Ba]. destruct IHc as [IHc Bc].
    assert (G : refs (Bin b a c) (Bin b a' c')) by (apply refs_Bin; assumption).
    destruct b; try (split; [exact G | exact I]).
    2: { split; [exact G |]. exists c'. rewrite CA. auto. }
    destruct a' as [| | | b2 p q | | |]; try (split; [exact G | exact I]).
    destruct b2; try (split; [exact G | exact I]).
    destruct (opteq oa c) eqn:O1.
    + destruct oa as [o |]; [| discriminate]. apply exeq_true in O1. subst o. unfold baseOK in Ba. cbn [snd fst] in Ba.
      destruct Ba as [q' [EQ R]]. injection EQ as EP <-.
      split; [| exists (Add q (Const (kint A 1))); rewrite EP; split; [reflexivity | exact R]]. cbn [fst]. intros v H. cbn [eval] in H. unfold bind2 in H.
      dx a X. dx c Y. injection H as <-. specialize (IHa x X). rewrite CC in EP. cbn [fst] in EP. subst c'. specialize (IHc x0 Y). revert IHa. evs. rewrite IHc. dx q Q.
      intros P. rewrite (e_int A den E). apply rpow_add; [exact P | apply rpow_1].
    + destruct c' as [| | | b3 p2 r | | |]; try (split; [exact G | exact I]). destruct b3; try (split; [exact G | exact I]).
      destruct (opteq2 oa oc) eqn:O2; [| split; [exact G | exact I]].
      destruct oa as [o |]; [| discriminate]. destruct oc as [o' |]; [| discriminate]. apply exeq_true in O2. subst o'.
      unfold baseOK in Ba, Bc. cbn [snd fst] in Ba, Bc. destruct Ba as [q' [EQ R]]. injection EQ as EP <-.
      destruct Bc as [q' [EQ _]]. injection EQ as EP2 <-. rewrite <- EP in EP2. subst p2.
      split; [| exists (Add q r); rewrite EP; split; [reflexivity | exact R]]. cbn [fst]. intros v H. cbn [eval] in H. unfold bind2 in H.
      dx a X. dx c Y. injection H as <-. specialize (IHa x X). specialize (IHc x0 Y). revert IHa IHc. evs.
      dx p P. dx q Q. dx r W. intros P1 P2. apply rpow_add; assumption.
  - cbn [fst]. split; [apply refs_Cmp; [apply IHa | apply IHb] | exact I].
  - cbn [fst]. split; [apply refs_Fma; [apply IHa | apply IHb | apply IHc] | exact I].
  - cbn [fst]. split; [apply refs_Tern; [apply IHc | apply IHa | apply IHb] | exact I].
Qed.

(** applyComparisonOptimizations.  In a condition only the sign of the value matters. *)
Definition refsC (cond : bool) (t t' : ex) : Prop :=
  forall v, ev t = Some v -> exists v', ev t' = Some v' /\ (if cond then holds v' = holds v else v' = v).
Lemma refsC_refs : forall t t', refsC false t t' <-> refs t t'.
Proof. intros t t'. split; intros H v X; [destruct (H v X) as [v' [Y ->]]; exact Y | exists v; split; [apply H, X | reflexivity]]. Qed.
Lemma refs_refsC : forall c t t', refs t t' -> refsC c t t'.
Proof. intros c t t' H v X. exists v. split; [apply H, X | destruct c; reflexivity]. Qed.
Lemma cmpRule_sound : forall cond t t', cmpRule cond t = Some t' -> refsC cond t t'.
Proof.
  intros cond t t'. destruct t as [| | | | o a b | | c a b]; try discriminate; cbn [cmpRule].
  - destruct (exeq a b) eqn:Q.
    + apply exeq_true in Q. subst b. intros [= <-]. apply refs_refsC. evs. intros v. dx a X. intros [= <-]. f_equal.
      destruct o; rewrite (e_int A den E); cbn [csem]; destruct (Req_EM_T x x), (Rlt_dec x x), (Rle_dec x x); lra || congruence || reflexivity.
    + destruct cond; [| discriminate]. destruct o; try discriminate; intros [= <-] v; evs; dx a X; dx b Y; intros [= <-]; eexists; (split; [reflexivity |]);
        cbn [csem]; unfold holds; [destruct (Rlt_dec x x0) | destruct (Rle_dec x x0)];
        repeat match goal with |- context [Rlt_dec ?p ?q] => destruct (Rlt_dec p q) end; lra || reflexivity.
  - destruct (exeq a b) eqn:Q.
    + apply exeq_true in Q. subst b. intros [= <-]. apply refs_refsC. evs. intros v. dx c X. destruct (holds x); auto.
    + destruct c as [| | | | o x y | |]; try discriminate.
      assert (M : forall m, (if (exeq x a && exeq y b) || (exeq x b && exeq y a) then Some (Bin (if m : bool then bMin else bMax) x y) else None) = Some t' ->
                  ((m = exeq x a /\ (o = cLT \/ o = cLE)) \/ (m = negb (exeq x a) /\ (o = cNLE \/ o = cNLT))) -> refsC cond (Tern (Cmp o x y) a b) t').
      { intros m. destruct ((exeq x a && exeq y b) || (exeq x b && exeq y a)) eqn:S; [| discriminate]. intros [= <-] MO. apply refs_refsC.
        evs. intros v. dx x X. dx y Y.
        assert (D : (x = a /\ y = b /\ exeq x a = true) \/ (x = b /\ y = a /\ exeq x a = false)).
        { destruct (exeq x a) eqn:XA.
          - apply exeq_true in XA. subst a. destruct (exeq y b) eqn:YB; [apply exeq_true in YB; auto |].
            cbn in S. destruct (exeq x b) eqn:XB; [congruence | discriminate].
          - cbn in S. apply andb_true_iff in S. destruct S as [S1 S2]. apply exeq_true in S1. apply exeq_true in S2. auto. }
        destruct D as [[-> [-> F]] | [-> [-> F]]]; rewrite F in MO; destruct MO as [[-> [-> | ->]] | [-> [-> | ->]]]; cbn [csem bsem negb]; rewrite ?X, ?Y;
          unfold Rmin, Rmax; destruct (Rlt_dec x0 x1), (Rle_dec x0 x1); rewrite ?holds1, ?holds0; intros [= <-]; f_equal; lra. }
      destruct o; try discriminate; intros H.
      * eapply M; [exact H | left; auto].
      * eapply M; [exact H | left; auto].
      * eapply M; [exact H | right; auto].
      * eapply M; [exact H | right; auto].
Qed.
Lemma refsC_bool : forall b a a' c c', isBool b = true -> refsC true a a' -> refsC true c c' -> refs (Bin b a c) (Bin b a' c').
Proof.
  intros b a a' c c' B H1 H2 v. evs. dx a X. dx c Y. destruct (H1 x X) as [x' [-> EX]]. destruct (H2 x0 Y) as [y' [-> EY]].
  destruct b; try discriminate; cbn [bsem]; rewrite EX, EY; auto.
Qed.
Theorem cmp_soundC : forall t cond, refsC cond t (fst (cmpPass cond t)).
Proof.
  induction t as [k | i | u a IHa | b a IHa c IHc | o a IHa b IHb | f a IHa b IHb c IHc | c IHc a IHa b IHb]; intros cond;
    match goal with |- refsC _ ?t _ => destruct (cmpRule cond t) as [t' |] eqn:R end.
  all: try (match goal with R : cmpRule _ ?t = Some _ |- _ => cbn [cmpPass]; rewrite R; apply cmpRule_sound, R end).
  all: cbn [cmpPass]; rewrite R.
  - apply refs_refsC, refs_refl.
  - apply refs_refsC, refs_refl.
  - specialize (IHa false). destruct (cmpPass false a). apply refs_refsC, refs_Un, refsC_refs, IHa.
  - specialize (IHa (isBool b)). specialize (IHc (isBool b)). destruct (cmpPass (isBool b) a), (cmpPass (isBool b) c). cbn [fst] in *. apply refs_refsC.
    destruct (isBool b) eqn:B; [apply refsC_bool; assumption | apply refs_Bin; apply refsC_refs; assumption].
  - specialize (IHa false). specialize (IHb false). destruct (cmpPass false a), (cmpPass false b). apply refs_refsC, refs_Cmp; apply refsC_refs; assumption.
  - specialize (IHa false). specialize (IHb false). specialize (IHc false). destruct (cmpPass false a), (cmpPass false b), (cmpPass false c).
    apply refs_refsC, refs_Fma; apply refsC_refs; assumption.
  - specialize (IHa false). specialize (IHb false). specialize (IHc true). destruct (cmpPass false a), (cmpPass false b), (cmpPass true c). cbn [fst] in *.
    apply refs_refsC. evs. intros v. dx c X. destruct (IHc x X) as [x' [-> EX]]. rewrite EX. apply refsC_refs in IHa. apply refsC_refs in IHb.
    destruct (holds x); auto.
Qed.
Theorem cmp_sound : forall t, refs t (fst (cmpPass false t)).
Proof. intros t. apply refsC_refs, cmp_soundC. Qed.

(** applyStrengthReduction *)
Notation sound := (sound (den := den) rho).
Lemma s_neg_sound : sound s_neg.
Proof. intros t t' H. destruct t as [| | | [] a b | | |]; try discriminate; cbn in H; cv H 0%Z; evs; intros v; dx b X; rewrite Q; intros [= <-]; f_equal; ring. Qed.
Lemma s_mulm1_sound : sound s_mulm1.
Proof.
  intros t t' H. destruct t as [| | | [] a b | | |]; try discriminate; cbn in H; cv H (-1)%Z; evs; intros v; dx a X; rewrite Q.
  - intros [= <-]. f_equal. ring.
  - destruct (Req_EM_T (-1) 0); [lra |]. intros [= <-]. f_equal. field.
Qed.
Lemma s_addneg_sound : sound s_addneg.
Proof. intros t t' H. destruct t as [| | | [] a [| | [] b | | | |] | | |]; try discriminate; injection H as <-; evs; intros v; dx a X; dx b Y; intros [= <-]; f_equal; ring. Qed.
Lemma s_negadd_sound : sound s_negadd.
Proof. intros t t' H. destruct t as [| | | [] [| | [] a | | | |] b | | |]; try discriminate; injection H as <-; evs; intros v; dx a X; dx b Y; intros [= <-]; f_equal; ring. Qed.
Lemma s_negsub_sound : sound s_negsub.
Proof. intros t t' H. destruct t as [| | [] [| | | [] a b | | |] | | | |]; try discriminate; injection H as <-; evs; intros v; dx a X; dx b Y; intros [= <-]; f_equal; ring. Qed.
Lemma s_double_sound : forall pa, sound (s_double pa).
Proof.
  intros pa t t' H. destruct t as [| | | [] a b | | |]; try discriminate; cbn in H. cvn H 2%Z. destruct pa; [discriminate |]. injection H as <-.
  evs; intros v; dx a X; rewrite Q; intros [= <-]; f_equal; ring.
Qed.
Lemma s_recip_sound : sound s_recip.
Proof.
  intros t t' H. destruct t as [| | | [] a [k | | | | | |] | | |]; try discriminate. cbn in H. destruct (kfinite A _); [| discriminate]. injection H as <-.
  evs; intros v; dx a X. destruct (Req_EM_T (den k) 0) as [|NZ]; [discriminate |]. rewrite (e_div A den E) by exact NZ. rewrite (e_int A den E).
  intros [= <-]. f_equal. field. exact NZ.
Qed.
Lemma s_recmul_sound : sound s_recmul.
Proof.
  intros t t' H. destruct t as [| | | [] [| | | [] a b | | |] c | | |]; try discriminate. cbn in H. cv H 1%Z. evs; intros v. dx b X.
  destruct (Req_EM_T x 0); [discriminate |]. dx c Y. rewrite Q. intros [= <-]. f_equal. field. assumption.
Qed.
Lemma s_mulrec_sound : sound s_mulrec.
Proof.
  intros t t' H. destruct t as [| | | [] c [| | | [] a b | | |] | | |]; try discriminate. cbn in H. cv H 1%Z. evs; intros v. dx c Y. dx b X.
  destruct (Req_EM_T x0 0); [discriminate |]. rewrite Q. intros [= <-]. f_equal. field. assumption.
Qed.
Lemma s_divmul_sound : sound s_divmul.
Proof.
  intros t t' H. destruct t as [| | | [] [| | | [] a b | | |] c | | |]; try discriminate. injection H as <-. evs; intros v. dx a X. dx b Y. dx c W.
  - destruct (Req_EM_T x0 0); [discriminate |]. intros [= <-]. f_equal. field. assumption.
  - destruct (Req_EM_T x0 0); discriminate.
Qed.
Lemma s_muldiv_sound : sound s_muldiv.
Proof.
  intros t t' H. destruct t as [| | | [] a [| | | [] b c | | |] | | |]; try discriminate. injection H as <-. evs; intros v. dx a X. dx b Y. dx c W.
  destruct (Req_EM_T x1 0); [discriminate |]. intros [= <-]. f_equal. field. assumption.
Qed.
Lemma s_divdiv_sound : sound s_divdiv.
Proof.
  intros t t' H. destruct t as [| | | [] a [| | | [] b c | | |] | | |]; try discriminate. injection H as <-. evs; intros v. dx a X. dx b Y. dx c W.
  destruct (Req_EM_T x1 0) as [| N1]; [discriminate |]. destruct (Req_EM_T (x0 / x1) 0) as [| N2]; [discriminate |].
  destruct (Req_EM_T x0 0) as [-> | N0]; [exfalso; apply N2; field; exact N1 |]. intros [= <-]. f_equal. field. auto.
Qed.
Lemma s_divdiv2_sound : sound s_divdiv2.
Proof.
  intros t t' H. destruct t as [| | | [] [| | | [] a b | | |] c | | |]; try discriminate. injection H as <-. evs; intros v. dx a X. dx b Y. dx c W.
  - destruct (Req_EM_T x0 0) as [| N1]; [discriminate |]. destruct (Req_EM_T x1 0) as [| N2]; [discriminate |].
    destruct (Req_EM_T (x0 * x1) 0) as [Z0 | N0]; [destruct (Rmult_integral _ _ Z0); contradiction |]. intros [= <-]. f_equal. field. auto.
  - destruct (Req_EM_T x0 0); discriminate.
Qed.
Lemma s_sqrt_sound : sound s_sqrt.
Proof.
  intros t t' H. destruct t as [| | | [] a [k | | | | | |] | | |]; try discriminate. cbn in H.
  destruct (negb (kisint A k) && kisint A (kmul A k (kint A 4))) eqn:C; [| discriminate]. injection H as <-. apply andb_true_iff in C. destruct C as [C _].
  apply negb_true_iff in C. evs; intros v. dx a X. intros P. rewrite (e_mul A den E), (e_int A den E).
  destruct (rpow_cases _ _ _ P) as [[S ->] | [[-> [S ->]] | [_ [n [N _]]]]].
  - rewrite rpow_pos by exact S. assert (G : 0 < Rpower x (den k * 2)) by (unfold Rpower; apply exp_pos). destruct (Rle_dec 0 (Rpower x (den k * 2))); [| lra].
    f_equal. rewrite <- Rpower_sqrt by exact G. rewrite Rpower_mult. f_equal. field.
  - rewrite rpow_zero by lra. destruct (Rle_dec 0 0); [| lra]. rewrite sqrt_0. reflexivity.
  - exfalso. assert (kisint A k = true) by (apply (e_isint A den E); eauto). congruence.
Qed.
Lemma s_powneg_sound : sound s_powneg.
Proof.
  intros t t' H. destruct t as [| | | [] a [k | | | | | |] | | |]; try discriminate. cbn in H.
  destruct (kisint A k && klt A k (kint A 0)) eqn:C; [| discriminate]. injection H as <-. apply andb_true_iff in C. destruct C as [C1 C2].
  apply (e_lt A den E) in C2. rewrite (e_int A den E) in C2. evs; intros v. dx a X. intros P. rewrite (e_neg A den E), (e_int A den E).
  assert (NZ : x <> 0) by (intros ->; destruct (rpow_cases _ _ _ P) as [[S _] | [[_ [S _]] | [S _]]]; lra).
  destruct (rpow_opp _ _ _ NZ P) as [N1 N2]. rewrite N2. destruct (Req_EM_T (/ v) 0) as [Z0 | _]; [exfalso; exact (Rinv_neq_0_compat v N1 Z0) |].
  f_equal. field. exact N1.
Qed.
Lemma intPow_ok : forall f a x n, ev a = Some x -> (1 <= n <= 2 ^ Z.of_nat f)%Z -> ev (intPow f a n) = Some (x ^ Z.to_nat n).
Proof.
  induction f as [| f IH]; intros a x n X N; cbn [intPow].
  - change (2 ^ Z.of_nat 0)%Z with 1%Z in N. assert (n = 1)%Z by lia. subst n. rewrite X. f_equal. change (Z.to_nat 1) with 1%nat. ring.
  - destruct (Z.eqb_spec n 1) as [-> | N1]; [rewrite X; f_equal; change (Z.to_nat 1) with 1%nat; ring |].
    assert (D : Z.quot (n + 1) 2 = ((n + 1) / 2)%Z) by (apply Z.quot_div_nonneg; lia). rewrite D.
    pose proof (Z.div_mod (n + 1) 2 ltac:(lia)) as DM. pose proof (Z.mod_pos_bound (n + 1) 2 ltac:(lia)) as MB.
    rewrite Nat2Z.inj_succ, Z.pow_succ_r in N by lia. set (q := ((n + 1) / 2)%Z) in *.
    cbn [eval]. unfold bind2. rewrite (IH a x q X) by lia. rewrite (IH a x (n - q)%Z X) by lia. cbn [bsem]. f_equal.
    rewrite <- pow_add. f_equal. lia.
Qed.
Lemma s_pow_sound : sound s_pow.
Proof.
  intros t t' H. destruct t as [| | | [] a [k | | | | | |] | | |]; try discriminate. cbn in H.
  destruct (kisint A k && klt A (kint A 0) k) eqn:C; [| discriminate]. injection H as <-. apply andb_true_iff in C. destruct C as [C1 C2].
  apply (e_lt A den E) in C2. rewrite (e_int A den E) in C2. apply (e_isint A den E) in C1. destruct C1 as [n N]. rewrite (e_toint A den E _ _ N).
  rewrite N in C2. apply lt_IZR in C2. intros v. cbn [eval]. unfold bind2. dx a X. cbn [bsem]. rewrite N. intros P.
  rewrite (intPow_ok _ a x n X).
  - f_equal. destruct (Req_dec x 0) as [-> | NZ].
    + apply rpow_0base in P. rewrite P. apply pow_i. lia.
    + rewrite rpow_int in P by exact NZ. injection P as <-. destruct n as [| p | p]; [lia | reflexivity | lia].
  - split; [lia |]. destruct (Z.log2_spec n C2) as [_ L]. apply Z.lt_le_incl. eapply Z.lt_le_trans; [exact L |]. apply Z.pow_le_mono_r; [lia |].
    pose proof (Z.log2_nonneg n). lia.
Qed.
Lemma strengthRules_sound : forall pa, Forall sound (strengthRules pa).
Proof.
  intros pa. repeat constructor.
  - apply s_neg_sound.
  - apply s_mulm1_sound.
  - apply s_addneg_sound.
  - apply s_negadd_sound.
  - apply s_negsub_sound.
  - apply s_double_sound.
  - apply s_recip_sound.
  - apply s_recmul_sound.
  - apply s_mulrec_sound.
  - apply s_divmul_sound.
  - apply s_muldiv_sound.
  - apply s_divdiv_sound.
  - apply s_divdiv2_sound.
  - apply s_sqrt_sound.
  - apply s_powneg_sound.
  - apply s_pow_sound.
Qed.
Theorem strength_sound : forall t pa, refs t (fst (strength pa t)).
Proof.
  induction t as [k | i | u a IHa | b a IHa c IHc | o a IHa b IHb | f a IHa b IHb c IHc | c IHc a IHa b IHb]; intros pa; cbn [strength]; cbv zeta;
    repeat match goal with |- context [strength ?q ?a] => match goal with IH : forall pa, refines _ _ _ _ a _ |- _ => specialize (IH q); destruct (strength q a) as [? ?] end end;
    cbn [fst] in *; (eapply refs_trans; [| apply runRules_sound, strengthRules_sound]).
  - apply refs_refl.
  - apply refs_refl.
  - apply refs_Un; assumption.
  - apply refs_Bin; assumption.
  - apply refs_Cmp; assumption.
  - apply refs_Fma; assumption.
  - apply refs_Tern; assumption.
Qed.

(** applyOpFusion *)
Ltac fus H e := destruct e; [| discriminate]; injection H as <-; evs; cbn [fsem]; intros v.
Lemma f_addR_sound : forall e, sound (f_addR e).
Proof. intros e t t' H. destruct t as [| | | [] a [| | | [] b c | | |] | | |]; try discriminate. cbn in H. fus H e. dx a X. dx b Y. dx c W. intros [= <-]. f_equal. ring. Qed.
Lemma f_addL_sound : forall e, sound (f_addL e).
Proof. intros e t t' H. destruct t as [| | | [] [| | | [] b c | | |] a | | |]; try discriminate. cbn in H. fus H e. dx b Y. dx c W. dx a X. intros [= <-]. f_equal. Qed.
Lemma f_subR_sound : forall e, sound (f_subR e).
Proof. intros e t t' H. destruct t as [| | | [] a [| | | [] b c | | |] | | |]; try discriminate. cbn in H. fus H e. dx a X. dx b Y. dx c W. intros [= <-]. f_equal. ring. Qed.
Lemma f_subL_sound : forall e, sound (f_subL e).
Proof. intros e t t' H. destruct t as [| | | [] [| | | [] b c | | |] a | | |]; try discriminate. cbn in H. fus H e. dx b Y. dx c W. dx a X. intros [= <-]. f_equal. Qed.
Lemma f_dist_sound : forall e, sound (f_dist e).
Proof.
  intros e t t' H. destruct t as [| | | [] [| | | [] a [j | | | | | |] | | |] [k | | | | | |] | | |]; try discriminate; cbn in H; fus H e; dx a X;
    rewrite (e_mul A den E); intros [= <-]; f_equal; ring.
Qed.
Lemma f_neg_sound : forall e, sound (f_neg e).
Proof.
  intros e t t' H. destruct t as [| | [] [| | | | | f a b c |] | | | |]; try discriminate. cbn in H. fus H e. dx a X. dx b Y. dx c W. intros [= <-]. f_equal.
  destruct f; cbn; ring.
Qed.
Lemma fusionRules_sound : forall e1 e2, Forall sound (fusionRules e1 e2).
Proof.
  intros e1 e2. repeat constructor; [apply f_addR_sound | apply f_addL_sound | apply f_subR_sound | apply f_subL_sound | apply f_dist_sound | apply f_neg_sound].
Qed.
Theorem fusion_sound : forall cnt t, refs t (fst (fusion cnt t)).
Proof.
  intros cnt. induction t as [k | i | u a IHa | b a IHa c IHc | o a IHa b IHb | f a IHa b IHb c IHc | c IHc a IHa b IHb]; cbn [fusion];
    repeat match goal with |- context [fusion cnt ?a] => destruct (fusion cnt a) as [? ?] end; cbn [fst] in *.
  - apply refs_refl.
  - apply refs_refl.
  - eapply refs_trans; [| apply runRules_sound, fusionRules_sound]. apply refs_Un; assumption.
  - eapply refs_trans; [| apply runRules_sound, fusionRules_sound]. apply refs_Bin; assumption.
  - apply refs_Cmp; assumption.
  - apply refs_Fma; assumption.
  - apply refs_Tern; assumption.
Qed.
End Sound2.
