(** Invariants of the per-node caching state. *)
From Coq Require Import ZArith List Lia Bool.
From Verif Require Import Common ReqPat CacheSpec Cache CacheLemmas CacheLemmas2 NodeCache.
Import ListNotations.
Open Scope Z_scope.

(** Independent statement of the decision. *)
Definition sole_pattern (ps : list reqpat) (p : reqpat) : Prop := ps = [p].
Definition should_cache (ps : list reqpat) : Prop :=
  ~ (sole_pattern ps rpStrictSpatial \/ sole_pattern ps rpNoFrameReuse).
Definition only_last (ps : list reqpat) : Prop := sole_pattern ps rpFrameReuseLastOnly.

Section L.
Variable F : Type.
Variable fsz : F -> Z.
Notation nstate := (nstate F).
Notation rel := (rel F fsz).
Definition empty (a : lru F) : Prop := live F a = [] /\ hist F a = [].

Definition patterns (s : nstate) : list reqpat := map snd (consumers F s).

Record inv (s : nstate) : Prop := {
  i_rel : exists a, rel (ncache F s) a /\ (cEnabled F s = false -> empty a);
  i_lin : cLinear F s = true -> cEnabled F s = true /\ cOverride F s = true;
  i_auto : cOverride F s = false ->
     (cEnabled F s = true <-> should_cache (patterns s)) /\ (cLastOnly F s = true <-> only_last (patterns s));
  i_lo : cLastOnly F s = true -> cOverride F s = false }.

Lemma pat_eqb_eq : forall a b, pat_eqb a b = true <-> a = b.
Proof. destruct a, b; simpl; split; congruence. Qed.

Lemma update_auto : forall s, cOverride F s = false ->
  let s' := updateCacheState F s in
  (cEnabled F s' = true <-> should_cache (patterns s)) /\ (cLastOnly F s' = true <-> only_last (patterns s)) /\
  patterns s' = patterns s /\ cOverride F s' = false /\ cLinear F s' = cLinear F s.
Proof.
  intros s Ho. cbv zeta. unfold updateCacheState, patterns, should_cache, only_last, sole_pattern. rewrite Ho.
  cbn [mk cEnabled cLastOnly consumers cOverride cLinear].
  destruct (consumers F s) as [|[i p] [|c2 t]]; cbn [map snd].
  - simpl. repeat split; auto; try discriminate; intros; intro; intuition discriminate.
  - change (zlength [(i, p)] =? 1) with true.
    destruct p; simpl; repeat split; auto; try discriminate; intros; try (intro; intuition discriminate); intuition congruence.
  - match goal with |- context [zlength ?l =? 1] => set (one := zlength l =? 1) end.
    assert (E : one = false).
    { unfold one. rewrite !zlength_cons. match goal with |- context [zlength ?l] => pose proof (zlength_nonneg _ l) end. apply Z.eqb_neq. lia. }
    rewrite E. cbn [negb orb andb]. repeat split; auto; try discriminate; intros; try intro; intuition discriminate.
Qed.

Lemma update_rel : forall s a, rel (ncache F s) a -> (cOverride F s = true -> cEnabled F s = false -> empty a) ->
  exists a', rel (ncache F (updateCacheState F s)) a' /\ (cEnabled F (updateCacheState F s) = false -> empty a').
Proof.
  intros s a R He. unfold updateCacheState. destruct (cOverride F s).
  - exists a; auto.
  - cbn [mk ncache cEnabled].
    match goal with |- context [if ?b then ncache F s else _] => destruct b end.
    + exists a. split; auto. discriminate.
    + exists (s_clear F a). split; [apply clear_rel; apply R|]. split; reflexivity.
Qed.

Lemma update_override : forall s, cOverride F s = true -> updateCacheState F s = s.
Proof. intros s H. unfold updateCacheState. rewrite H. auto. Qed.

Lemma inv_consumers : forall s cs, inv s -> inv (updateCacheState F (set_consumers F s cs)).
Proof.
  intros s cs I. destruct I as [[a [R He]] Hl Ha Hlo].
  destruct (update_rel (set_consumers F s cs) a R) as [a' [R' He']]; [intros _; exact He|].
  destruct (cOverride F s) eqn:Eo.
  - rewrite update_override in * by exact Eo.
    constructor; cbn [set_consumers mk cLinear cEnabled cOverride cLastOnly ncache]; rewrite ?Eo; auto; try congruence.
    exists a'. auto.
  - destruct (update_auto (set_consumers F s cs) Eo) as [U1 [U2 [U3 [U4 U5]]]].
    constructor; auto.
    + exists a'; auto.
    + rewrite U5. intros H. destruct (Hl H). discriminate.
    + intros _. rewrite U3. auto.
Qed.

Lemma empty_setmax : forall a m, empty a -> empty (s_setmax F a m).
Proof.
  intros a m [H1 H2]. unfold s_setmax, settle, keep, empty. cbn. rewrite H1, H2. rewrite !firstn_nil, skipn_nil. auto.
  split; auto. simpl. apply firstn_nil.
Qed.
Lemma empty_sethist : forall a m, empty a -> empty (s_sethist F a m).
Proof.
  intros a m [H1 H2]. unfold s_sethist, settle, keep, empty. cbn. rewrite H1, H2. rewrite !firstn_nil, skipn_nil. auto.
  split; auto. simpl. apply firstn_nil.
Qed.
Lemma empty_adjust : forall a m x, empty a -> empty (s_adjust F a m x).
Proof.
  intros a m x H. unfold s_adjust.
  assert (Hc : empty (s_clear F a)) by (split; auto).
  assert (Hs : empty (stats F (tune F a (fixed F a) (floor F a) x) 0 0 0)) by exact H.
  assert (Ht : empty (tune F a (fixed F a) (floor F a) x)) by exact H.
  repeat match goal with |- context [if ?c then _ else _] => destruct c end;
  repeat (first [assumption | apply empty_sethist | apply empty_setmax]).
Qed.
Lemma empty_drop : forall a b, empty a -> empty (s_drop F fsz a b).
Proof.
  intros a b [H1 H2]. unfold s_drop, keep. rewrite H1, H2. cbn [rev drop_count length Nat.sub firstn skipn map app].
  rewrite firstn_nil. cbv zeta. match goal with |- context [if ?c then _ else _] => destruct c end; split; auto.
Qed.

Lemma set_cache_inv : forall s c a, inv s -> rel c a -> (cEnabled F s = false -> empty a) -> inv (set_cache F s c).
Proof.
  intros s c a I R He. destruct I as [_ Hl Ha Hlo].
  constructor; cbn [set_cache mk cLinear cEnabled cOverride cLastOnly ncache]; auto. exists a; auto.
Qed.

Theorem nstep_inv : forall s o, inv s -> nop_ok F fsz s o ->
  exists s' r, nstep F fsz s o = Ok (s', r) /\ inv s'.
Proof.
  intros s o I Hok. pose proof I as I0. destruct I0 as [[a [R He]] Hl Ha Hlo].
  destruct o as [c|c|m|fx m mh|t|n|N n f|n f|b|m x|b]; cbn [nstep nop_ok] in *.
  - eexists _, _. split; [reflexivity|]. apply inv_consumers; auto.
  - eexists _, _. split; [reflexivity|]. apply inv_consumers; auto.
  - (* setCacheMode *)
    unfold setCacheMode. destruct (cLinear F s || (m <? -1) || (1 <? m)) eqn:Eg.
    { cbn [obind]. eexists _, _; split; [reflexivity|auto]. }
    set (s1 := if m =? -1 then _ else _).
    assert (Hs1 : exists a1, rel (ncache F s1) a1 /\ cLinear F s1 = false /\
       (cOverride F s1 = false -> (cEnabled F s1 = true <-> should_cache (patterns s1)) /\
                                  (cLastOnly F s1 = true <-> only_last (patterns s1))) /\
       (cLastOnly F s1 = true -> cOverride F s1 = false)).
    { assert (El : cLinear F s = false) by (destruct (cLinear F s); auto; discriminate).
      unfold s1. destruct (m =? -1).
      - set (s0 := mk F (consumers F s) false (cEnabled F s) (cLastOnly F s) (cLinear F s) (ncache F s)).
        destruct (update_rel s0 a R) as [a1 [R1 _]]; [intros; auto|].
        exists a1. split; auto. destruct (update_auto s0 eq_refl) as [U1 [U2 [U3 [U4 U5]]]].
        rewrite U5. split; [exact El|]. rewrite U3. split; auto.
      - exists a. destruct (m =? 0); cbn [mk ncache cLinear cOverride cLastOnly];
          (split; [exact R|]; split; [exact El|]; split; intros HH; discriminate HH). }
    destruct Hs1 as [a1 [R1 [L1 [A1 O1]]]].
    set (c0 := resetSizeTuning F (setFixedSize F (ncache F s1) false)).
    destruct (step_rel F fsz _ _ (OSetFixed false) R1 Logic.I) as [c1 [E1 R1']].
    cbn [step] in E1. inversion E1; subst c1; clear E1.
    destruct (step_rel F fsz _ _ OResetTuning R1' Logic.I) as [c1 [E1 R1'']].
    cbn [step] in E1. inversion E1; subst c1; clear E1. fold c0 in R1''.
    destruct (setMax_rel F fsz c0 _ 20 (proj1 R1'') ltac:(lia)) as [c2 [E2 R2]]. rewrite E2. cbn [obind].
    destruct (setHist_rel F fsz c2 _ 20 (proj1 R2) ltac:(lia)) as [c3 [E3 R3]]. rewrite E3. cbn [obind].
    eexists _, _; split; [reflexivity|].
    constructor; cbn [set_cache mk cLinear cEnabled cOverride cLastOnly ncache]; auto.
    + destruct (cEnabled F s1).
      * eexists; split; [exact R3|discriminate].
      * eexists; split; [apply clear_rel; apply R3|]. split; reflexivity.
    + rewrite L1. discriminate.
  - (* setCacheOptions *)
    unfold setCacheOptions.
    set (c0 := if 0 <=? fx then _ else _).
    assert (H0 : exists a0, rel c0 a0 /\ (cEnabled F s = false -> empty a0)).
    { unfold c0. destruct (0 <=? fx); [|exists a; auto].
      destruct (step_rel F fsz _ _ (OSetFixed (negb (fx =? 0))) R Logic.I) as [c1 [E1 R1]].
      cbn [step] in E1. inversion E1; subst c1. eexists; split; [exact R1|]. exact He. }
    destruct H0 as [a0 [R0 He0]].
    assert (H1 : exists c1 a1, (if 0 <=? m then setUserMaxFrames F fsz c0 m else Ok c0) = Ok c1 /\ rel c1 a1 /\
        (cEnabled F s = false -> empty a1)).
    { destruct (Z.leb_spec 0 m); [|exists c0, a0; auto].
      destruct (step_rel F fsz _ _ (OSetUser m) R0 H) as [c1 [E1 R1]]. cbn [step] in E1.
      destruct (setUserMaxFrames F fsz c0 m) as [c1'| |]; cbn [obind] in E1; try discriminate.
      inversion E1; subst c1'. eexists _, _; split; [reflexivity|]. split; [exact R1|].
      intros En. apply empty_setmax. exact (He0 En). }
    destruct H1 as [c1 [a1 [E1 [R1 He1]]]]. rewrite E1. cbn [obind].
    assert (H2 : exists c2 a2, (if 0 <=? mh then setMaxHistory F fsz c1 mh else Ok c1) = Ok c2 /\ rel c2 a2 /\
        (cEnabled F s = false -> empty a2)).
    { destruct (Z.leb_spec 0 mh); [|exists c1, a1; auto].
      destruct (setHist_rel F fsz c1 a1 mh (proj1 R1) H) as [c2 [E2 R2]]. rewrite E2.
      eexists _, _; split; [reflexivity|]. split; [exact R2|]. intros En. apply empty_sethist. auto. }
    destruct H2 as [c2 [a2 [E2 [R2 He2]]]]. rewrite E2. cbn [obind].
    eexists _, _; split; [reflexivity|]. eapply set_cache_inv; eauto.
  - (* setLinear *)
    unfold setLinear.
    destruct (step_rel F fsz _ _ (OSetFixed true) R Logic.I) as [c1 [E1 R1]].
    cbn [step] in E1. inversion E1; subst c1; clear E1.
    destruct (setMax_rel F fsz _ _ (t * 2 + 20) (proj1 R1) ltac:(lia)) as [c2 [E2 R2]]. rewrite E2. cbn [obind].
    eexists _, _; split; [reflexivity|].
    constructor; cbn [mk cLinear cEnabled cOverride cLastOnly ncache]; auto; try discriminate.
    eexists; split; [exact R2|discriminate].
  - (* lookup *)
    unfold getCachedFrame. destruct (cEnabled F s) eqn:En.
    + destruct (relink_rel F fsz _ _ n R) as [c' [E R']]. rewrite E. cbn [obind fst snd].
      eexists _, _; split; [reflexivity|]. eapply set_cache_inv; eauto. congruence.
    + eexists _, _; split; [reflexivity|auto].
  - (* deliver *)
    unfold deliver. destruct (cEnabled F s) eqn:En; cbn [andb].
    + destruct (negb (cLastOnly F s) || (n =? N - 1)).
      * destruct (insert_rel F fsz _ _ n f (proj1 R) (proj1 Hok)) as [c' [E R']].
        { rewrite <- (r_bytes _ _ _ _ (proj1 R)). apply Hok. }
        rewrite E. cbn [obind]. eexists _, _; split; [reflexivity|]. eapply set_cache_inv; eauto. congruence.
      * eexists _, _; split; [reflexivity|auto].
    + eexists _, _; split; [reflexivity|auto].
  - (* cacheFrame *)
    unfold cacheFrame. destruct Hok as [Hlin [Hf Hm]]. rewrite Hlin.
    destruct (insert_rel F fsz _ _ n f (proj1 R) Hf) as [c' [E R']].
    { rewrite <- (r_bytes _ _ _ _ (proj1 R)). apply Hm. }
    rewrite E. cbn [obind]. eexists _, _; split; [reflexivity|]. eapply set_cache_inv; eauto.
    destruct (Hl Hlin). congruence.
  - (* clearCache *)
    unfold clearCache. pose proof (clear_rel F fsz _ _ (proj1 R)) as Rc.
    destruct (b && negb (cLinear F s) && negb (fixedSize F (clear F (ncache F s)))).
    + unfold reSeedSize. rewrite (r_user _ _ _ _ (proj1 Rc)).
      destruct (setMax_rel F fsz _ _ (Z.max 20 (floor F (s_clear F a))) (proj1 Rc) ltac:(lia)) as [c' [E R']].
      rewrite E. cbn [obind]. eexists _, _; split; [reflexivity|]. eapply set_cache_inv; eauto.
      intros _. apply empty_setmax. split; reflexivity.
    + cbn [obind]. eexists _, _; split; [reflexivity|]. eapply set_cache_inv; eauto. intros _; split; reflexivity.
  - unfold notifyCache. destruct (adjust_rel F fsz _ _ m x R) as [c' [E R']]. rewrite E. cbn [obind].
    eexists _, _; split; [reflexivity|]. eapply set_cache_inv; eauto. intros En. apply empty_adjust; auto.
  - unfold evictCacheBytes. destruct (drop_rel F fsz _ _ b R) as [c' [fr [E R']]]. rewrite E. cbn [obind fst].
    eexists _, _; split; [reflexivity|]. eapply set_cache_inv; eauto. intros En. apply empty_drop; auto.
Qed.

Lemma new_inv : inv (newNode F).
Proof.
  assert (I0 : inv (updateCacheState F (mk F [] false false false false (newCache F 20 20 false)))).
  2: exact I0.
  set (s0 := mk F [] false false false false (newCache F 20 20 false)).
  destruct (update_auto s0 eq_refl) as [U1 [U2 [U3 [U4 U5]]]].
  destruct (update_rel s0 _ (init_rel F fsz 20 20 false ltac:(lia) ltac:(lia))) as [a' [R' He']].
  { intros; split; reflexivity. }
  constructor; auto.
  - exists a'; auto.
Qed.

Lemma reach_inv : forall s, reach F fsz s -> inv s.
Proof.
  induction 1 as [|s o s' r H IH Hok E]; [apply new_inv|].
  destruct (nstep_inv s o IH Hok) as [s2 [r2 [E2 I2]]]. rewrite E in E2. inversion E2; subst. auto.
Qed.

(** ** C12 *)
Theorem auto_decision : forall s, reach F fsz s -> cOverride F s = false ->
  (cEnabled F s = true <-> should_cache (map snd (consumers F s))) /\
  (cLastOnly F s = true <-> only_last (map snd (consumers F s))).
Proof. intros s H. apply (i_auto _ (reach_inv s H)). Qed.

Theorem node_progress : forall s o, reach F fsz s -> nop_ok F fsz s o ->
  exists s' r, nstep F fsz s o = Ok (s', r).
Proof.
  intros s o H Hok. destruct (nstep_inv s o (reach_inv s H) Hok) as [s' [r [E _]]]. eauto.
Qed.

Theorem disabled_empty : forall s, reach F fsz s -> cEnabled F s = false ->
  forall k, hash F (ncache F s) k = None.
Proof.
  intros s H En k. destruct (i_rel _ (reach_inv s H)) as [a [[R _] He]].
  destruct (He En) as [E1 E2]. apply frames_None. rewrite (r_view _ _ _ _ R), E1, E2. reflexivity.
Qed.

Lemma erase_app_same : forall c cs,
  (erase c (cs ++ [c]) = cs) \/ (exists l1 l2, cs = l1 ++ c :: l2 /\ erase c (cs ++ [c]) = l1 ++ l2 ++ [c]).
Proof.
  intros [i p] cs. induction cs as [|[j q] t IH]; cbn [app erase fst snd].
  - left. assert (E : pat_eqb p p = true) by (apply pat_eqb_eq; auto). rewrite Z.eqb_refl, E. auto.
  - destruct (Z.eqb_spec j i); cbn [andb].
    + destruct (pat_eqb q p) eqn:E.
      * apply pat_eqb_eq in E. subst. right. exists [], t. auto.
      * destruct IH as [IH|[l1 [l2 [H1 H2]]]]; [left; congruence|].
        right. exists ((j, q) :: l1), l2. rewrite H1 at 1. rewrite H2. auto.
    + destruct IH as [IH|[l1 [l2 [H1 H2]]]]; [left; congruence|].
      right. exists ((j, q) :: l1), l2. rewrite H1 at 1. rewrite H2. auto.
Qed.

Theorem add_remove_restores : forall s c, reach F fsz s ->
  let s' := removeConsumer F (addConsumer F s c) c in
  cEnabled F s' = cEnabled F s /\ cLastOnly F s' = cLastOnly F s /\ cOverride F s' = cOverride F s.
Proof.
  intros s c H s'. pose proof (reach_inv s H) as I0.
  assert (H1 : reach F fsz (addConsumer F s c)) by (eapply (reach_step F fsz s (NAdd F c)); eauto; [exact I|reflexivity]).
  assert (H2 : reach F fsz s') by (eapply (reach_step F fsz _ (NRemove F c)); eauto; [exact I|reflexivity]).
  destruct (cOverride F s) eqn:Eo.
  - unfold s', removeConsumer, addConsumer.
    rewrite (update_override (set_consumers F s (consumers F s ++ [c]))) by exact Eo.
    rewrite update_override by exact Eo. cbn [set_consumers mk cEnabled cLastOnly cOverride]. auto.
  - assert (Eo1 : cOverride F (addConsumer F s c) = false).
    { unfold addConsumer. destruct (update_auto (set_consumers F s (consumers F s ++ [c])) Eo) as [_ [_ [_ [U _]]]]. auto. }
    assert (Ec1 : consumers F (addConsumer F s c) = consumers F s ++ [c]).
    { unfold addConsumer, updateCacheState. destruct (cOverride F _); reflexivity. }
    assert (Eo2 : cOverride F s' = false).
    { unfold s', removeConsumer. destruct (update_auto (set_consumers F (addConsumer F s c) (erase c (consumers F (addConsumer F s c)))) Eo1) as [_ [_ [_ [U _]]]]. auto. }
    assert (Ec2 : consumers F s' = erase c (consumers F s ++ [c])).
    { unfold s', removeConsumer. rewrite Ec1. unfold updateCacheState. destruct (cOverride F (set_consumers F _ _)); reflexivity. }
    destruct (auto_decision s H Eo) as [D1 D2]. destruct (auto_decision s' H2 Eo2) as [D1' D2'].
    rewrite Ec2 in D1', D2'.
    assert (Hsole : forall p, sole_pattern (map snd (erase c (consumers F s ++ [c]))) p <-> sole_pattern (map snd (consumers F s)) p).
    { intros p. unfold sole_pattern. destruct (erase_app_same c (consumers F s)) as [->|[l1 [l2 [E1 E2]]]]; [tauto|].
      rewrite E2, E1. destruct l1 as [|x [|y l1]], l2 as [|z l2]; simpl; split; intros Hx; auto; try discriminate;
      try (destruct l2; discriminate); destruct l1; discriminate. }
    unfold should_cache, only_last in *. rewrite Hsole in D1'. rewrite Hsole in D1'. rewrite Hsole in D2'.
    split; [|split; auto].
    + apply Bool.eq_iff_eq_true. rewrite D1, D1'. reflexivity.
    + apply Bool.eq_iff_eq_true. rewrite D2, D2'. reflexivity.
Qed.

(** Not caching is harmless when the consumer is honest about its pattern. *)
Theorem disabled_no_reuse : forall s N M req n m j,
  reach F fsz s -> cOverride F s = false -> cEnabled F s = false ->
  (forall c, In c (consumers F s) -> honest (snd c) N M req) ->
  0 <= n < M -> 0 <= m < M -> req n j -> req m j -> n = m.
Proof.
  intros s N M req n m j H Ho En Hh Hn Hm Rn Rm.
  destruct (auto_decision s H Ho) as [D _].
  assert (Hs : sole_pattern (map snd (consumers F s)) rpStrictSpatial \/ sole_pattern (map snd (consumers F s)) rpNoFrameReuse).
  { unfold should_cache in D. unfold sole_pattern in *. destruct (consumers F s) as [|[i p] [|c2 t]] eqn:Ec.
    - exfalso. rewrite En in D. assert (false = true) by (apply D; intros [E|E]; discriminate). discriminate.
    - simpl. destruct p; auto; exfalso; rewrite En in D; assert (false = true) by (apply D; intros [E|E]; discriminate); discriminate.
    - exfalso. rewrite En in D. assert (false = true) by (apply D; intros [E|E]; discriminate). discriminate. }
  destruct (consumers F s) as [|[i p] [|c2 t]]; try (destruct Hs as [E|E]; discriminate).
  specialize (Hh (i, p) (or_introl eq_refl)). cbn [snd] in Hh.
  destruct Hs as [E|E]; inversion E; subst; cbn [honest] in Hh.
  - destruct (Hh n Hn) as [_ H1]. destruct (Hh m Hm) as [_ H2]. apply H1 in Rn. apply H2 in Rm. congruence.
  - destruct Hh as [_ Hi]. eapply Hi; eauto.
Qed.

End L.
