(** Consequences of the simulation for single calls. *)
From Coq Require Import ZArith List Lia Bool String.
From Verif Require Import Common SMap MapSpec MapModel MapLemmas MapLemmas2 MapLemmas3 MapSim MapAlias.
Import ListNotations.
Local Open Scope string_scope.
Local Open Scope list_scope.
Open Scope Z_scope.

(** [s] and [sp]: the state of the program and the state it should be in after
    the calls [os], all of them allowed. *)
Definition reached (os : list mop) (s : st) (sp : spec) : Prop :=
  exists rs, s_run s_init os = Some (sp, rs) /\ run init os = Ok (s, rs).

Lemma reached_sim : forall os s sp, reached os s sp -> sim s sp.
Proof.
  intros os s sp [rs [E1 E2]]. destruct (run_sim os init s_init sp rs sim_init E1) as [s' [E3 S]]. congruence.
Qed.

Lemma always_reached : forall os sp rs, s_run s_init os = Some (sp, rs) -> exists s, run init os = Ok (s, rs) /\ reached os s sp.
Proof.
  intros os sp rs E. destruct (run_sim os init s_init sp rs sim_init E) as [s [E2 S]]. exists s. split; auto. exists rs. auto.
Qed.

Lemma values : forall os sp rs, s_run s_init os = Some (sp, rs) ->
  exists s, run init os = Ok (s, rs) /\ forall h, contents s h = p_at sp h.
Proof.
  intros os sp rs E. destruct (run_sim os init s_init sp rs sim_init E) as [s [E2 S]]. exists s. split; auto. apply S.
Qed.

(** ** No leaks *)
Lemma no_handles : forall s sp, sim s sp -> (forall h, p_at sp h = None) ->
  (forall i, stos s i = None) /\ (forall a, arrs s a = None).
Proof.
  intros s sp [I [N C]] Hp.
  assert (Hh : forall h, hands s h = None).
  { intros h. destruct (hands s h) as [i|] eqn:E; auto. destruct (hand_alive _ _ _ _ I E) as [x Ex].
    specialize (C h). rewrite Hp in C. unfold contents in C. rewrite E, Ex in C. discriminate. }
  assert (Hs : forall i, stos s i = None).
  { intros i. pose proof (iS _ _ _ I i) as Hi. destruct (stos s i) as [x|]; auto. exfalso.
    assert (cntS s i = 0). { unfold cntS. apply sumto_zero. intros. rewrite Hh. auto. }
    destruct Hi as [A [B _]]. unfold zero in A. lia. }
  split; auto. intros a. pose proof (iA _ _ _ I a) as Ha. destruct (arrs s a) as [[r x]|]; auto. exfalso.
  assert (cntA s a = 0). { unfold cntA. apply sumto_zero. intros. rewrite Hs. auto. }
  destruct Ha as [A [B _]]. unfold zero in A. lia.
Qed.
Lemma freed_all : forall os s sp, reached os s sp -> (forall h, p_at sp h = None) ->
  (forall i, stos s i = None) /\ (forall a, arrs s a = None).
Proof. intros os s sp H. eapply no_handles, reached_sim; eauto. Qed.

(** The reference counts are exact. *)
Definition refs_of_array (s : st) (a : nat) : Z :=
  sumto (nS s) (fun i => match stos s i with Some x => zlength (filter (Nat.eqb a) (map snd (s_map x))) | None => 0 end).
Definition refs_of_storage (s : st) (i : nat) : Z :=
  sumto (nH s) (fun h => match hands s h with Some j => if Nat.eqb i j then 1 else 0 | None => 0 end).
Lemma cntl_filter : forall a l, cntl a l = zlength (filter (Nat.eqb a) l).
Proof.
  induction l; [reflexivity|]. rewrite cntl_cons, IHl. cbn [filter]. unfold d. destruct (Nat.eqb a a0); [rewrite zlength_cons|]; lia.
Qed.
Lemma counts_exact : forall os s sp, reached os s sp ->
  (forall a, match arrs s a with Some (r, _) => r = refs_of_array s a /\ 0 < r | None => refs_of_array s a = 0 end) /\
  (forall i, match stos s i with Some x => s_ref x = refs_of_storage s i /\ 0 < s_ref x | None => refs_of_storage s i = 0 end).
Proof.
  intros os s sp H. destruct (reached_sim _ _ _ H) as [I _].
  assert (E1 : forall a, refs_of_array s a = cntA s a).
  { intros a. unfold refs_of_array, cntA. apply sumto_ext. intros i _. unfold wA. destruct (stos s i); auto. rewrite cntl_filter. auto. }
  assert (E2 : forall i, refs_of_storage s i = cntS s i) by reflexivity.
  split.
  - intros a. rewrite E1. pose proof (iA _ _ _ I a) as Ha. unfold zero in Ha. destruct (arrs s a) as [[r x]|]; lia.
  - intros i. rewrite E2. pose proof (iS _ _ _ I i) as Hi. unfold zero in Hi. destruct (stos s i) as [x|]; lia.
Qed.

(** ** Isolation *)
Definition target (o : mop) : option nat :=
  match o with
  | OAssign d _ => Some d | OFree h => Some h | OCopy _ d => Some d | OClear h => Some h | OError h _ => Some h
  | ODelete h _ => Some h | OSet h _ _ _ => Some h | OEmpty h _ _ => Some h | OArray h _ _ _ => Some h
  | _ => None
  end.
Lemma step_isolated : forall sp o sp' r h, s_step sp o = Some (sp', r) -> target o <> Some h -> (h < p_next sp)%nat ->
  p_at sp' h = p_at sp h /\ (h < p_next sp')%nat.
Proof.
  intros sp o sp' r h E T L.
  assert (Hne : forall x, Some x <> Some h -> Nat.eqb h x = false) by (intros; apply Nat.eqb_neq; congruence).
  assert (Hput : forall x m, Some x <> Some h -> p_at (s_put sp x m) h = p_at sp h).
  { intros. cbn. rewrite Hne by auto. auto. }
  assert (Htry : forall x q, Some x <> Some h -> p_at (fst (s_try sp x q)) h = p_at sp h /\ p_next (fst (s_try sp x q)) = p_next sp).
  { intros x [m|] Hx; cbn; [rewrite Hne by auto|]; auto. }
  destruct o; cbn [s_step target] in *;
    repeat match goal with H : match ?q with Some _ => _ | None => None end = _ |- _ => destruct q eqn:?; [|discriminate] end;
    try (destruct (forallb _ _); [|discriminate]);
    try (inversion E; subst; exact (conj eq_refl L));
    try (unfold s_new in E; inversion E; subst; cbn [p_at p_next];
         assert (Hh : Nat.eqb h (p_next sp) = false) by (apply Nat.eqb_neq; lia); rewrite Hh; split; auto; lia).
  - inversion E; subst. rewrite Hput by auto. auto.
  - inversion E; subst. cbn. rewrite Hne by auto. auto.
  - inversion E; subst. destruct (Nat.eqb src dst); [auto|]. rewrite Hput by auto. auto.
  - inversion E; subst. rewrite Hput by auto. auto.
  - inversion E; subst. rewrite Hput by auto. auto.
  - injection E as E. destruct (mget k (pm p)); inversion E; subst; [rewrite Hput by auto; auto|auto].
  - injection E as E. destruct (Htry h0 (set_value p k v m) T) as [A B]. rewrite E in *. cbn [fst] in *. rewrite B. auto.
  - injection E as E. destruct (Htry h0 (set_empty p k t) T) as [A B]. rewrite E in *. cbn [fst] in *. rewrite B. auto.
  - injection E as E. destruct (Htry h0 (set_array p k t l) T) as [A B]. rewrite E in *. cbn [fst] in *. rewrite B. auto.
Qed.
Lemma isolated : forall os s sp o s' r h, reached os s sp -> welltyped o = true -> step s o = Ok (s', r) ->
  hands s h <> None -> target o <> Some h -> contents s' h = contents s h.
Proof.
  intros os s sp o s' r h H W E Hh T. pose proof (reached_sim _ _ _ H) as S. pose proof S as [I [N C]].
  destruct (s_step sp o) as [[sp' r']|] eqn:Es.
  - destruct (step_sim s sp o sp' r' S Es) as [s2 [E2 [_ [_ C2]]]]. rewrite E in E2. inversion E2; subst.
    rewrite C2, C. destruct (hands s h) as [i|] eqn:Ei; [|congruence].
    eapply step_isolated; eauto. rewrite <- N. eapply alive_lt_H; eauto.
  - rewrite (step_dead s sp o S W Es) in E. discriminate.
Qed.

(** ** Set, append, get *)
Lemma run_spec : forall os s sp os' sp' rs, reached os s sp -> s_run sp os' = Some (sp', rs) ->
  exists s', run s os' = Ok (s', rs).
Proof.
  intros os s sp os' sp' rs H E. destruct (run_sim os' s sp sp' rs (reached_sim _ _ _ H) E) as [s' [E2 _]]. eauto.
Qed.

Lemma put_at : forall sp h m, p_at (s_put sp h m) h = Some m.
Proof. intros. cbn. rewrite Nat.eqb_refl. auto. Qed.

Lemma get_at : forall sp h m k t l i v, p_at sp h = Some m -> pe m = false -> mget k (pm m) = Some (t, l) -> nthz l i = Some v ->
  s_step sp (OGet h k i t) = Some (sp, RVal peSuccess (Some v)).
Proof.
  intros sp h m k t l i v Hp He Hg Hn. cbn [s_step]. rewrite Hp. unfold lookup_at. rewrite He, Hg, Hn.
  destruct (ptype_eqb_spec t t); [reflexivity|congruence].
Qed.
Lemma count_at : forall sp h m k t l, p_at sp h = Some m -> mget k (pm m) = Some (t, l) ->
  s_step sp (OCount h k) = Some (sp, RNum (zlength l)).
Proof. intros sp h m k t l Hp Hg. cbn [s_step]. rewrite Hp, Hg. auto. Qed.

Lemma run1 : forall sp o sp' r os, s_step sp o = Some (sp', r) ->
  s_run sp (o :: os) = match s_run sp' os with Some (sp2, rs) => Some (sp2, r :: rs) | None => None end.
Proof. intros. cbn [s_run]. rewrite H. auto. Qed.

Lemma replace_fact : forall os s sp h m k v, reached os s sp -> p_at sp h = Some m -> pe m = false -> identifier k = true ->
  exists s', run s [OSet h k v MReplace; OCount h k; OGet h k 0 (vtype v); OType h k]
    = Ok (s', [ROk true; RNum 1; RVal peSuccess (Some v); RType (Some (vtype v))]).
Proof.
  intros os s sp h m k v H Hp He Hk. eapply run_spec; eauto.
  erewrite run1 by (cbn [s_step]; rewrite Hp; unfold set_value; rewrite Hk; cbn [negb s_try]; reflexivity).
  set (m' := set_pm m (mput k (vtype v, [v]) (pm m))). set (sp1 := s_put sp h m').
  assert (Hp1 : p_at sp1 h = Some m') by apply put_at.
  assert (Hg1 : mget k (pm m') = Some (vtype v, [v])) by (cbn [m' set_pm pm]; apply mget_put_same).
  rewrite (run1 _ _ _ _ _ (count_at sp1 h m' k _ _ Hp1 Hg1)).
  rewrite (run1 _ _ _ _ _ (get_at sp1 h m' k _ _ 0 v Hp1 He Hg1 eq_refl)).
  erewrite run1 by (cbn [s_step]; rewrite Hp1, Hg1; reflexivity). cbn [s_run]. reflexivity.
Qed.

(** After appending, the old values are still there and the new one is last. *)
Lemma append_fact : forall os s sp h m k v, reached os s sp -> p_at sp h = Some m -> pe m = false -> identifier k = true ->
  match mget k (pm m) with
  | None => exists s', run s [OSet h k v MAppend; OCount h k; OGet h k 0 (vtype v)] = Ok (s', [ROk true; RNum 1; RVal peSuccess (Some v)])
  | Some (t, l) =>
    if ptype_eqb t (vtype v)
    then forall i w, nthz l i = Some w -> exists s',
      run s [OSet h k v MAppend; OCount h k; OGet h k i t; OGet h k (zlength l) t]
      = Ok (s', [ROk true; RNum (zlength l + 1); RVal peSuccess (Some w); RVal peSuccess (Some v)])
    else step s (OSet h k v MAppend) = Ok (s, ROk false)
  end.
Proof.
  intros os s sp h m k v H Hp He Hk. destruct (mget k (pm m)) as [[t l]|] eqn:Eg.
  - destruct (ptype_eqb t (vtype v)) eqn:Et.
    + intros i w Hw. eapply run_spec; eauto.
      erewrite run1 by (cbn [s_step]; rewrite Hp; unfold set_value; rewrite Hk, Eg, Et; cbn [negb s_try]; reflexivity).
      set (m' := set_pm m (mput k (t, l ++ [v]) (pm m))). set (sp1 := s_put sp h m').
      assert (Hp1 : p_at sp1 h = Some m') by apply put_at.
      assert (Hg1 : mget k (pm m') = Some (t, (l ++ [v])%list)) by (cbn [m' set_pm pm]; apply mget_put_same).
      rewrite (run1 _ _ _ _ _ (count_at sp1 h m' k _ _ Hp1 Hg1)).
      assert (Hi1 : nthz (l ++ [v]) i = Some w) by (rewrite nthz_app1; auto; apply nthz_range in Hw; lia).
      rewrite (run1 _ _ _ _ _ (get_at sp1 h m' k _ _ i w Hp1 He Hg1 Hi1)).
      assert (Hi2 : nthz (l ++ [v]) (zlength l) = Some v).
      { rewrite nthz_app2 by lia. replace (zlength l - zlength l) with 0 by lia. reflexivity. }
      rewrite (run1 _ _ _ _ _ (get_at sp1 h m' k _ _ (zlength l) v Hp1 He Hg1 Hi2)). cbn [s_run].
      rewrite zlength_app. reflexivity.
    + pose proof (reached_sim _ _ _ H) as S. destruct S as [I [N C]]. rewrite <- C in Hp.
      pose proof (set_ok s h k v MAppend m I Hp) as Hs. unfold set_value in Hs. rewrite Hk, Eg, Et in Hs. cbn [negb] in Hs.
      cbn [step]. rewrite Hs. reflexivity.
  - eapply run_spec; eauto.
    erewrite run1 by (cbn [s_step]; rewrite Hp; unfold set_value; rewrite Hk, Eg; cbn [negb s_try]; reflexivity).
    set (m' := set_pm m (mput k (vtype v, [v]) (pm m))). set (sp1 := s_put sp h m').
    assert (Hp1 : p_at sp1 h = Some m') by apply put_at.
    assert (Hg1 : mget k (pm m') = Some (vtype v, [v])) by (cbn [m' set_pm pm]; apply mget_put_same).
    rewrite (run1 _ _ _ _ _ (count_at sp1 h m' k _ _ Hp1 Hg1)).
    rewrite (run1 _ _ _ _ _ (get_at sp1 h m' k _ _ 0 v Hp1 He Hg1 eq_refl)). reflexivity.
Qed.

Lemma other_keys : forall os s sp h m k k' v md i t, reached os s sp -> p_at sp h = Some m -> k' <> k ->
  exists s' r b, run s [OSet h k v md; OGet h k' i t] = Ok (s', [ROk b; r]) /\ step s (OGet h k' i t) = Ok (s, r).
Proof.
  intros os s sp h m k k' v md i t H Hp Hne. pose proof (reached_sim _ _ _ H) as S.
  pose proof S as [I [N C]]. rewrite <- C in Hp. pose proof (set_ok s h k v md m I Hp) as Hs.
  cbn [run step]. rewrite (get_ok s h k' i t m I Hp). destruct (set_value m k v md) as [m'|] eqn:Em.
  - destruct Hs as [s' [E [I' [N' [C1 C2]]]]]. rewrite E. cbn [obind fst snd].
    rewrite (get_ok s' h k' i t m' I' C1). cbn [obind fst snd]. do 3 eexists. split; [reflexivity|].
    assert (Hl : lookup_at m' k' i t = lookup_at m k' i t).
    { unfold set_value in Em. unfold lookup_at. destruct (identifier k); cbn [negb] in Em; [|discriminate].
      assert (Hx : forall q, m' = set_pm m (mput k q (pm m)) -> pe m' = pe m /\ mget k' (pm m') = mget k' (pm m)).
      { intros q ->. cbn [set_pm pm pe]. rewrite mget_put_other; auto. }
      assert (Hy : exists q, m' = set_pm m (mput k q (pm m))).
      { destruct md, (mget k (pm m)) as [[t' l]|]; try (destruct (ptype_eqb t' (vtype v)));
          try discriminate; injection Em as <-; eauto. }
      destruct Hy as [q Hq]. destruct (Hx q Hq) as [A B]. rewrite A, B. auto. }
    rewrite Hl. reflexivity.
  - rewrite Hs. cbn [obind fst snd]. rewrite (get_ok s h k' i t m I Hp). cbn. do 3 eexists. split; reflexivity.
Qed.

Lemma bad_key : forall os s sp h m k v md, reached os s sp -> p_at sp h = Some m -> identifier k = false ->
  step s (OSet h k v md) = Ok (s, ROk false).
Proof.
  intros os s sp h m k v md H Hp Hk. pose proof (reached_sim _ _ _ H) as [I [N C]]. rewrite <- C in Hp.
  pose proof (set_ok s h k v md m I Hp) as Hs. unfold set_value in Hs. rewrite Hk in Hs. cbn [negb] in Hs.
  cbn [step]. rewrite Hs. reflexivity.
Qed.

(** Reading: success exactly when the key exists with that type and the index is in range. *)
Lemma get_fact : forall os s sp h m k i t, reached os s sp -> p_at sp h = Some m ->
  exists e v, step s (OGet h k i t) = Ok (s, RVal e v) /\
    (e = peSuccess <-> pe m = false /\ exists l w, mget k (pm m) = Some (t, l) /\ nthz l i = Some w /\ v = Some w) /\
    (e = peError <-> pe m = true) /\
    (e = peUnset <-> pe m = false /\ mget k (pm m) = None) /\
    (e = peIndex <-> pe m = false /\ exists t' l, mget k (pm m) = Some (t', l) /\ (i < 0 \/ zlength l <= i)) /\
    (e = peType <-> pe m = false /\ exists t' l, mget k (pm m) = Some (t', l) /\ 0 <= i < zlength l /\ t' <> t) /\
    (e <> peSuccess -> v = None).
Proof.
  intros os s sp h m k i t H Hp. pose proof (reached_sim _ _ _ H) as [I [N C]]. rewrite <- C in Hp.
  cbn [step]. rewrite (get_ok s h k i t m I Hp). cbn [obind]. exists (fst (lookup_at m k i t)), (snd (lookup_at m k i t)).
  split; [reflexivity|]. unfold lookup_at. destruct (pe m).
  { cbn [fst snd]. repeat split; try congruence; intros [A B]; discriminate. }
  destruct (mget k (pm m)) as [[t' l]|].
  - destruct (nthz l i) as [w|] eqn:En.
    + pose proof (nthz_range _ _ _ _ En). destruct (ptype_eqb_spec t' t); cbn [fst snd].
      * subst. split; [split; [intros; split; eauto|auto]|]. repeat split; try congruence.
        -- intros [_ A]. discriminate.
        -- intros [_ [t' [l' [A B]]]]. inversion A; subst. lia.
        -- intros [_ [t' [l' [A [B D]]]]]. inversion A; subst. congruence.
      * split. { split; [discriminate|]. intros [_ [l' [w' [A [B D]]]]]. inversion A; subst. congruence. }
        split; [split; discriminate|]. split; [split; [discriminate|intros [_ A]; discriminate]|].
        split; [split; [discriminate|intros [_ [a [b [A B]]]]; inversion A; subst; lia]|].
        split; [|auto]. split; auto. intros _. split; auto. exists t', l. auto.
    + apply nthz_None_iff in En as En'. cbn [fst snd].
      split. { split; [discriminate|]. intros [_ [l' [w' [A [B D]]]]]. inversion A; subst. congruence. }
      split; [split; discriminate|]. split; [split; [discriminate|intros [_ A]; discriminate]|].
      split. { split; auto. intros _. split; auto. exists t', l. auto. }
      split; [|auto]. split; [discriminate|]. intros [_ [a [b [A [B D]]]]]. inversion A; subst. lia.
  - cbn [fst snd]. split. { split; [discriminate|]. intros [_ [l' [w' [A [B D]]]]]. discriminate. }
    split; [split; discriminate|]. split; [split; auto|].
    split; [split; [discriminate|intros [_ [a [b [A B]]]]; discriminate]|].
    split; [split; [discriminate|intros [_ [a [b [A B]]]]; discriminate]|auto].
Qed.

(** ** Errors *)
Lemma error_fact : forall os s sp h m msg, reached os s sp -> p_at sp h = Some m ->
  exists s', run s [OError h msg; OGetError h; ONumKeys h; OKey h 0] = Ok (s', [RUnit; RStr (Some msg); RNum 1; RStr (Some "_Error")]).
Proof.
  intros os s sp h m msg H Hp. eapply run_spec; eauto. cbn [s_run s_step]. rewrite Hp.
  rewrite put_at. cbn [error_text error_map fresh pe pm mget String.eqb Ascii.eqb Bool.eqb]. rewrite !put_at. reflexivity.
Qed.
Lemma clear_fact : forall os s sp h m, reached os s sp -> p_at sp h = Some m ->
  exists s', run s [OClear h; OGetError h; ONumKeys h] = Ok (s', [RUnit; RStr None; RNum 0]).
Proof.
  intros os s sp h m H Hp. eapply run_spec; eauto. cbn [s_run s_step]. rewrite Hp.
  rewrite put_at. cbn [error_text error_map fresh pe pm mget String.eqb Ascii.eqb Bool.eqb]. rewrite !put_at. reflexivity.
Qed.

(** Which handles are in error after a history, read off the calls alone. *)
Fixpoint flags (n : nat) (f : nat -> bool) (os : list mop) : nat -> bool :=
  match os with
  | [] => f
  | o :: t =>
    let set h b := fun x => if Nat.eqb x h then b else f x in
    match o with
    | ONew => flags (S n) (set n false) t
    | OClone h => flags (S n) (set n (f h)) t
    | OAssign d h => flags n (set d (f h)) t
    | OClear h => flags n (set h false) t
    | OError h _ => flags n (set h true) t
    | _ => flags n f t
    end
  end.
Lemma flags_ok : forall os sp sp' rs f, s_run sp os = Some (sp', rs) ->
  (forall h m, p_at sp h = Some m -> pe m = f h) ->
  forall h m, p_at sp' h = Some m -> pe m = flags (p_next sp) f os h.
Proof.
  induction os as [|o t IH]; intros sp sp' rs f E Hf h m Hm; cbn [s_run flags] in *.
  { inversion E; subst. auto. }
  destruct (s_step sp o) as [[sp1 r]|] eqn:Es; [|discriminate].
  destruct (s_run sp1 t) as [[sp2 rs2]|] eqn:Er; [|discriminate]. inversion E; subst.
  assert (Hput : forall x y, (forall q, p_at sp x = Some q -> pe y = pe q) -> p_at sp x <> None -> forall h m, p_at (s_put sp x y) h = Some m -> pe m = f h).
  { intros x y Hy Hn h' m' Hm'. cbn in Hm'. destruct (Nat.eqb_spec h' x); [|auto]. subst. inversion Hm'; subst.
    destruct (p_at sp x) as [q|] eqn:Eq; [|congruence]. rewrite (Hy q eq_refl). auto. }
  assert (Hset : forall x y b, pe y = b -> forall h m, p_at (s_put sp x y) h = Some m -> pe m = (if Nat.eqb h x then b else f h)).
  { intros x y b Hb h' m' Hm'. cbn in Hm'. destruct (Nat.eqb_spec h' x); [|auto]. congruence. }
  assert (Hnew : forall y b, pe y = b -> forall h m, p_at (fst (s_new sp y)) h = Some m -> pe m = (if Nat.eqb h (p_next sp) then b else f h)).
  { intros y b Hb h' m' Hm'. cbn in Hm'. destruct (Nat.eqb_spec h' (p_next sp)); [|auto]. congruence. }
  assert (Htry : forall x p q, p_at sp x = Some p -> (forall y, q = Some y -> pe y = pe p) ->
     p_next (fst (s_try sp x q)) = p_next sp /\ forall h m, p_at (fst (s_try sp x q)) h = Some m -> pe m = f h).
  { intros x p [y|] Hx Hq; cbn [s_try fst]; [|auto]. split; auto. apply Hput; [|congruence]. intros q Hq'. rewrite Hx in Hq'. inversion Hq'; subst. auto. }
  destruct o; cbn [s_step] in Es;
    repeat match goal with H : match ?q with Some _ => _ | None => None end = Some (sp1, r) |- _ => destruct q eqn:?; [|discriminate] end;
    try (injection Es as <- _; eapply IH; eauto; fail).
  - pose proof (Hnew fresh false eq_refl) as Hn. injection Es as <- _.
    exact (IH _ _ _ _ Er Hn h m Hm).
  - assert (Hpf : pe p = f h0) by auto. pose proof (Hnew p (f h0) Hpf) as Hn. injection Es as <- _. exact (IH _ _ _ _ Er Hn h m Hm).
  - injection Es as <- _. assert (Hpf : pe p0 = f src) by auto. exact (IH _ _ _ _ Er (Hset dst p0 _ Hpf) h m Hm).
  - injection Es as <- _. eapply (IH (s_del sp h0)); eauto. intros h' m' Hm'. cbn in Hm'. destruct (Nat.eqb h' h0); [discriminate|auto].
  - injection Es as <- _. destruct (Nat.eqb src dst); [exact (IH _ _ _ _ Er Hf h m Hm)|].
    refine (IH (s_put _ _ _) _ _ _ Er _ h m Hm). apply Hput; [|congruence]. intros q Hq. rewrite Heqo in Hq. inversion Hq; subst. reflexivity.
  - injection Es as <- _. exact (IH _ _ _ _ Er (Hset h0 fresh false eq_refl) h m Hm).
  - injection Es as <- _. exact (IH _ _ _ _ Er (Hset h0 (error_map msg) true eq_refl) h m Hm).
  - injection Es as Es. destruct (mget k (pm p)); inversion Es; subst; [|exact (IH _ _ _ _ Er Hf h m Hm)].
    refine (IH (s_put _ _ _) _ _ _ Er _ h m Hm). apply Hput; [|congruence]. intros q Hq. rewrite Heqo in Hq. inversion Hq; subst. reflexivity.
  - injection Es as Es. destruct (Htry h0 p (set_value p k v m0) Heqo) as [A B].
    { intros y. unfold set_value. destruct (negb _); [discriminate|]. destruct m0, (mget k (pm p)) as [[t' l]|];
        try (destruct (ptype_eqb t' (vtype v))); intros Hy; inversion Hy; reflexivity. }
    rewrite Es in *. cbn [fst] in *. rewrite <- A. exact (IH _ _ _ _ Er B h m Hm).
  - injection Es as Es. destruct (Htry h0 p (set_empty p k t0) Heqo) as [A B].
    { intros y. unfold set_empty. destruct (negb _); [discriminate|]. destruct (mget k (pm p)); intros Hy; inversion Hy; reflexivity. }
    rewrite Es in *. cbn [fst] in *. rewrite <- A. exact (IH _ _ _ _ Er B h m Hm).
  - destruct (forallb _ _); [|discriminate]. injection Es as Es. destruct (Htry h0 p (set_array p k t0 l) Heqo) as [A B].
    { intros y. unfold set_array. destruct (negb _); [discriminate|]. intros Hy; inversion Hy; reflexivity. }
    rewrite Es in *. cbn [fst] in *. rewrite <- A. exact (IH _ _ _ _ Er B h m Hm).
Qed.

(** Calls that name the error key themselves. *)
Definition names_error (o : mop) : bool :=
  match o with
  | ODelete _ k | OSet _ k _ _ | OEmpty _ k _ | OArray _ k _ _ => String.eqb k "_Error"
  | _ => false
  end.
(** The message entry is well formed whenever it is present, present when flagged. *)
Definition msg_ok (m : pmap) : Prop :=
  (forall t l, mget "_Error" (pm m) = Some (t, l) -> t = ptData /\ exists hh s l', l = VData hh s :: l') /\
  (pe m = true -> mget "_Error" (pm m) <> None).
Lemma msg_text : forall m, msg_ok m -> error_text m <> None.
Proof.
  intros m [H1 H2]. unfold error_text. destruct (pe m); [|discriminate].
  destruct (mget "_Error" (pm m)) as [[t l]|] eqn:E; [|intro; apply H2; auto].
  destruct (H1 t l eq_refl) as [-> [hh [x [l' ->]]]]. discriminate.
Qed.
Lemma msg_put : forall m k q, msg_ok m -> k <> "_Error" -> msg_ok (set_pm m (mput k q (pm m))).
Proof.
  intros m k q [H1 H2] Hk. split; cbn [set_pm pm pe].
  - intros t l E. rewrite mget_put_other in E by auto. eauto.
  - intros E. rewrite mget_put_other by auto. auto.
Qed.
Lemma msg_del : forall m k, msg_ok m -> k <> "_Error" -> msg_ok (set_pm m (mdel k (pm m))).
Proof.
  intros m k [H1 H2] Hk. split; cbn [set_pm pm pe].
  - intros t l E. rewrite mget_del_other in E by auto. eauto.
  - intros E. rewrite mget_del_other by auto. auto.
Qed.
Lemma msg_merge : forall l m, (forall k q, In (k, q) l -> k = "_Error" -> exists hh s l', q = (ptData, VData hh s :: l')) ->
  msg_ok m -> msg_ok (set_pm m (fold_left (fun a p => mput (fst p) (snd p) a) l (pm m))).
Proof.
  induction l as [|[k q] t IH]; intros m Hl Hm; cbn [fold_left fst snd].
  - destruct m; auto.
  - assert (Hm1 : msg_ok (set_pm m (mput k q (pm m)))).
    { destruct (String.eqb_spec k "_Error"); [|apply msg_put; auto].
      subst. destruct (Hl "_Error" q (or_introl eq_refl) eq_refl) as [hh [x [l' ->]]]. split; cbn [set_pm pm pe].
      - intros t' l E. rewrite mget_put_same in E. inversion E; subst. eauto.
      - intros _. rewrite mget_put_same. discriminate. }
    exact (IH (set_pm m (mput k q (pm m))) (fun k' q' Hin => Hl k' q' (or_intror Hin)) Hm1).
Qed.
Lemma msorted_mget : forall (m : smap (ptype * list val)) k q, msorted m -> In (k, q) m -> mget k m = Some q.
Proof.
  induction m as [|[k' q'] t IH]; intros k q Hs Hin; [destruct Hin|]. inversion Hs; subst. cbn [mget].
  destruct Hin as [E|Hin].
  - inversion E; subst. rewrite String.eqb_refl. auto.
  - destruct (String.eqb_spec k k'); [|auto]. subst. rewrite Forall_forall in H2. apply H2 in Hin.
    unfold klt in Hin. cbn [fst] in Hin. rewrite scmp_refl in Hin. discriminate.
Qed.
Definition good (sp : spec) : Prop := forall h m, p_at sp h = Some m -> msg_ok m /\ msorted (pm m).
Lemma sorted_fold : forall l (m : smap (ptype * list val)), msorted m -> msorted (fold_left (fun a p => mput (fst p) (snd p) a) l m).
Proof. induction l; cbn [fold_left]; auto. intros. apply IHl. apply mput_sorted. auto. Qed.
Lemma step_good : forall sp o sp' r, good sp -> names_error o = false -> s_step sp o = Some (sp', r) -> good sp'.
Proof.
  intros sp o sp' r G Hn E.
  assert (Hput : forall x y, msg_ok y -> msorted (pm y) -> good (s_put sp x y)).
  { intros x y Hy Hs h m Hm. cbn in Hm. destruct (Nat.eqb h x); [inversion Hm; subst; auto|]. eapply G; eauto. }
  assert (Hnew : forall y, msg_ok y -> msorted (pm y) -> good (fst (s_new sp y))).
  { intros y Hy Hs h m Hm. cbn in Hm. destruct (Nat.eqb h (p_next sp)); [inversion Hm; subst; auto|]. eapply G; eauto. }
  assert (Hfresh : msg_ok fresh /\ msorted (pm fresh)).
  { split; [split; cbn; discriminate|constructor]. }
  assert (Htry : forall x q, (forall y, q = Some y -> msg_ok y /\ msorted (pm y)) -> good (fst (s_try sp x q))).
  { intros x [y|] Hq; cbn; [|auto]. destruct (Hq y eq_refl). apply Hput; auto. }
  assert (Hk : forall k, String.eqb k "_Error" = false -> k <> "_Error") by (intros k Hk ->; discriminate).
  destruct o; cbn [s_step names_error] in *;
    repeat match goal with H : match ?q with Some _ => _ | None => None end = Some (sp', r) |- _ => destruct q eqn:?; [|discriminate] end;
    try (destruct (forallb _ _); [|discriminate]);
    try (injection E as <- _; exact G);
    idtac.
  - injection E as <- _. apply (Hnew fresh); apply Hfresh.
  - destruct (G _ _ Heqo) as [Gm Gs]. injection E as <- _. apply (Hnew p); auto.
  - injection E as <- _. destruct (G _ _ Heqo0). apply Hput; auto.
  - injection E as <- _. intros h' m' Hm'. cbn in Hm'. destruct (Nat.eqb h' h); [discriminate|]. eapply G; eauto.
  - injection E as <- _. destruct (Nat.eqb src dst); auto. destruct (G _ _ Heqo) as [Gd Gds]. destruct (G _ _ Heqo0) as [Gm Gs].
    apply Hput; [|apply sorted_fold; auto]. apply msg_merge; auto. intros k q Hin ->.
    apply msorted_mget in Hin; auto. destruct q as [t l]. destruct Gm as [Gm _]. destruct (Gm t l Hin) as [-> [hh [x [l' ->]]]]. eauto.
  - injection E as <- _. apply Hput; apply Hfresh.
  - injection E as <- _. apply Hput; [|repeat constructor]. split; cbn; [|discriminate].
    intros t l Et. inversion Et; subst. eauto.
  - destruct (G _ _ Heqo) as [Gm Gs]. injection E as E. destruct (mget k (pm p)); inversion E; subst; auto. apply Hput; [apply msg_del; auto|apply mdel_sorted; auto].
  - destruct (G _ _ Heqo) as [Gm Gs]. injection E as E. pose proof (Htry h (set_value p k v m)) as Ht. rewrite E in Ht. apply Ht. intros y. unfold set_value.
    destruct (negb _); [discriminate|]. destruct m, (mget k (pm p)) as [[t' l]|];
      try (destruct (ptype_eqb t' (vtype v))); intros Hy; inversion Hy; subst; (split; [apply msg_put; auto|apply mput_sorted; auto]).
  - destruct (G _ _ Heqo) as [Gm Gs]. injection E as E. pose proof (Htry h (set_empty p k t)) as Ht. rewrite E in Ht. apply Ht. intros y. unfold set_empty.
    destruct (negb _); [discriminate|]. destruct (mget k (pm p)); intros Hy; inversion Hy; subst. split; [apply msg_put; auto|apply mput_sorted; auto].
  - destruct (G _ _ Heqo) as [Gm Gs]. injection E as E. pose proof (Htry h (set_array p k t l)) as Ht. rewrite E in Ht. apply Ht. intros y. unfold set_array.
    destruct (negb _); [discriminate|]. intros Hy; inversion Hy; subst. split; [apply msg_put; auto|apply mput_sorted; auto].
Qed.
Lemma run_good : forall os sp sp' rs, good sp -> forallb (fun o => negb (names_error o)) os = true -> s_run sp os = Some (sp', rs) -> good sp'.
Proof.
  induction os as [|o t IH]; intros sp sp' rs G Hn E; cbn [s_run forallb] in *.
  - inversion E; subst; auto.
  - apply andb_prop in Hn. destruct Hn as [Hn1 Hn2]. destruct (s_step sp o) as [[sp1 r]|] eqn:Es; [|discriminate].
    destruct (s_run sp1 t) as [[sp2 rs2]|] eqn:Er; [|discriminate]. inversion E; subst.
    eapply IH; [|exact Hn2|exact Er]. eapply step_good; eauto. destruct (names_error o); [discriminate|auto].
Qed.
(** Reading the error never fails and reports exactly the flag. *)
Lemma read_error_fact : forall os s sp h, reached os s sp -> forallb (fun o => negb (names_error o)) os = true ->
  p_at sp h <> None ->
  exists r, step s (OGetError h) = Ok (s, RStr r) /\ (r = None <-> flags 0 (fun _ => false) os h = false).
Proof.
  intros os s sp h H Hn Hp. pose proof (reached_sim _ _ _ H) as [I [N C]]. destruct H as [rs [E1 E2]].
  destruct (p_at sp h) as [m|] eqn:Em; [|congruence].
  assert (G : good sp) by (eapply run_good; [|exact Hn|exact E1]; intros h' m' Hm'; discriminate).
  destruct (G h m Em) as [Gm _]. pose proof (msg_text m Gm) as Ht. destruct (error_text m) as [r|] eqn:Er; [|congruence].
  rewrite <- C in Em. exists r. split; [cbn [step]; rewrite (error_ok s h m r I Em Er); reflexivity|].
  rewrite C in Em. pose proof (flags_ok os s_init sp rs (fun _ => false) E1 ltac:(intros; discriminate) h m Em) as Hf.
  cbn [s_init p_next] in Hf. rewrite <- Hf. unfold error_text in Er. destruct (pe m).
  - destruct (mget "_Error" (pm m)) as [[[] [|[] l]]|]; try discriminate. inversion Er; subst. split; discriminate.
  - inversion Er; subst. tauto.
Qed.
Lemma error_refuted : exists os s, run init os = Ok (s, [RHandle 0; RUnit; ROk true]) /\ step s (OGetError 0) = UB.
Proof. exists [ONew; OError 0 "failed"; ODelete 0 "_Error"]. eexists. split; [vm_compute; reflexivity|vm_compute; reflexivity]. Qed.
Lemma error_refuted2 : exists os s, run init os = Ok (s, [RHandle 0; RUnit; ROk true]) /\ step s (OGetError 0) = UB.
Proof. exists [ONew; OError 0 "failed"; OSet 0 "_Error" (VInt 1) MReplace]. eexists. split; [vm_compute; reflexivity|vm_compute; reflexivity]. Qed.

(** ** The colour range alias *)
Lemma flip_flip : forall z, flipRangeProperty (flipRangeProperty z) = z.
Proof.
  intros z. unfold flipRangeProperty. destruct (Z.eqb_spec z 0); [subst; auto|]. destruct (Z.eqb_spec z 1); [subst; auto|].
  destruct (Z.eqb_spec z 0); [lia|]. destruct (Z.eqb_spec z 1); [lia|auto].
Qed.

(** The value as seen through a name. *)
Definition view (k : string) (z : Z) : Z := if String.eqb k "_ColorRange" then flipRangeProperty z else z.
Definition other_name (k : string) : string := if String.eqb k "_ColorRange" then "_Range" else "_ColorRange".
Definition range_name (k : string) : Prop := k = "_ColorRange" \/ k = "_Range".

Lemma getInt_Range : forall s h k i, range_name k ->
  apiGetInt s h k i = obind (mapGet s h "_Range" i ptInt) (fun r =>
    match snd r with None => Ok (fst r, 0) | Some v => obind (toInt v) (fun z => Ok (fst r, view k z)) end).
Proof. intros s h k i [->| ->]; reflexivity. Qed.

Lemma views_fact : forall os s sp h m i, reached os s sp -> p_at sp h = Some m ->
  (exists e z, apiGetInt s h "_Range" i = Ok (e, z) /\
     apiGetInt s h "_ColorRange" i = Ok (e, match e with peSuccess => flipRangeProperty z | _ => z end)) /\
  apiNumElements s h "_ColorRange" = apiNumElements s h "_Range" /\
  apiGetType s h "_ColorRange" = apiGetType s h "_Range".
Proof.
  intros os s sp h m i H Hp. pose proof (reached_sim _ _ _ H) as [I [N C]]. rewrite <- C in Hp.
  split; [|split; reflexivity]. rewrite !getInt_Range by (unfold range_name; auto). rewrite (get_ok s h "_Range" i ptInt m I Hp). cbn [obind].
  assert (Hv : match lookup_at m "_Range" i ptInt with (peSuccess, Some (VInt _)) => True | (peSuccess, _) => False | (_, None) => True | _ => False end).
  { unfold lookup_at. destruct (pe m); cbn; auto. destruct (find_ok s h "_Range" m I Hp) as [o [Ef Hf]].
    destruct (mget "_Range" (pm m)) as [[t l]|]; cbn; auto. destruct o as [y|]; cbn in Hf; [|contradiction].
    destruct Hf as [Hy [Ht Hl]]. destruct (nthz l i) as [w|] eqn:En; cbn; auto. destruct (ptype_eqb_spec t ptInt); cbn; auto.
    pose proof (ao_ty y Hy) as Hty. rewrite Forall_forall in Hty. rewrite Hl in Hty. specialize (Hty w (nthz_In _ _ _ _ En)).
    rewrite Ht, e in Hty. destruct w as [| | | |b q|b q]; try discriminate; auto; destruct b; discriminate. }
  destruct (lookup_at m "_Range" i ptInt) as [e v]. cbn [fst snd]. destruct e, v as [w|]; try contradiction; try (do 2 eexists; split; reflexivity).
  destruct w; try contradiction. cbn [toInt obind]. do 2 eexists; split; reflexivity.
Qed.

(** Writing through a name and reading it back through either. *)
Lemma alias_roundtrip : forall os s sp h m k z, reached os s sp -> p_at sp h = Some m -> pe m = false -> range_name k ->
  exists s', apiSetInt s h k z MReplace = Ok (s', true) /\
    apiGetInt s' h k 0 = Ok (peSuccess, z) /\
    apiGetInt s' h (other_name k) 0 = Ok (peSuccess, flipRangeProperty z) /\
    apiNumElements s' h k = Ok 1 /\ apiNumElements s' h (other_name k) = Ok 1.
Proof.
  intros os s sp h m k z H Hp He Hk. pose proof (reached_sim _ _ _ H) as [I [N C]]. rewrite <- C in Hp.
  assert (Ek : apiSetInt s h k z MReplace = propSetShared s h "_Range" (VInt (view k z)) MReplace) by (destruct Hk; subst; reflexivity).
  pose proof (set_ok s h "_Range" (VInt (view k z)) MReplace m I Hp) as Hs.
  change (set_value m "_Range" (VInt (view k z)) MReplace) with (Some (set_pm m (mput "_Range" (ptInt, [VInt (view k z)]) (pm m)))) in Hs.
  cbv iota beta in Hs. destruct Hs as [s' [E [I' [N' [C1 C2]]]]]. exists s'. split; [rewrite Ek; exact E|].
  set (m' := set_pm m (mput "_Range" (ptInt, [VInt (view k z)]) (pm m))) in *.
  assert (Hg : mget "_Range" (pm m') = Some (ptInt, [VInt (view k z)])) by (cbn [m' set_pm pm]; apply mget_put_same).
  assert (Hr : forall k', range_name k' -> apiGetInt s' h k' 0 = Ok (peSuccess, view k' (view k z))).
  { intros k' Hk'. rewrite getInt_Range by auto. rewrite (get_ok s' h "_Range" 0 ptInt m' I' C1). unfold lookup_at.
    change (pe m') with (pe m). rewrite He, Hg. reflexivity. }
  assert (Hn : forall k', range_name k' -> apiNumElements s' h k' = Ok 1).
  { intros k' Hk'. assert (En : apiNumElements s' h k' = apiNumElements s' h "_Range") by (destruct Hk'; subst; reflexivity). rewrite En.
    unfold apiNumElements. cbn [remapColorRange String.eqb]. destruct (find_ok s' h "_Range" m' I' C1) as [o [Ef Hf]].
    change (remapColorRange "_Range") with "_Range". rewrite Ef. cbn [obind]. rewrite Hg in Hf. destruct o as [y|]; cbn in Hf; [|contradiction].
    destruct Hf as [Hy [_ Hl]]. rewrite (ao_size y Hy), Hl. reflexivity. }
  assert (Ho : range_name (other_name k)) by (destruct Hk; subst; unfold range_name; cbn; auto).
  split; [|split; [|split; auto]].
  - rewrite (Hr k Hk). f_equal. f_equal. unfold view. destruct (String.eqb k "_ColorRange"); [apply flip_flip|auto].
  - rewrite (Hr _ Ho). f_equal. f_equal. destruct Hk; subst; reflexivity.
Qed.

(** Appended values and whole arrays keep their position and are read back
    unchanged through the same name. *)
Lemma alias_array : forall os s sp h m k l i z, reached os s sp -> p_at sp h = Some m -> pe m = false -> range_name k -> nthz l i = Some z ->
  exists s', apiSetIntArray s h k l = Ok (s', true) /\
    apiGetInt s' h k i = Ok (peSuccess, z) /\ apiGetInt s' h (other_name k) i = Ok (peSuccess, flipRangeProperty z).
Proof.
  intros os s sp h m k l i z H Hp He Hk Hi. pose proof (reached_sim _ _ _ H) as [I [N C]]. rewrite <- C in Hp.
  assert (Ek : apiSetIntArray s h k l = mapSetArray s h "_Range" ptInt (map VInt (map (view k) l))).
  { destruct Hk; subst; unfold apiSetIntArray; cbn; [reflexivity|]. unfold view. cbn. rewrite map_id. reflexivity. }
  assert (Hty : Forall (fun v => vtype v = ptInt) (map VInt (map (view k) l))).
  { apply Forall_forall. intros v Hv. apply in_map_iff in Hv. destruct Hv as [x [<- _]]. auto. }
  pose proof (setArray_ok s h "_Range" ptInt _ m I Hp Hty) as Hs.
  change (set_array m "_Range" ptInt (map VInt (map (view k) l))) with (Some (set_pm m (mput "_Range" (ptInt, map VInt (map (view k) l)) (pm m)))) in Hs.
  cbv iota beta in Hs. destruct Hs as [s' [E [I' [N' [C1 C2]]]]]. exists s'. split; [rewrite Ek; exact E|].
  set (m' := set_pm m (mput "_Range" (ptInt, map VInt (map (view k) l)) (pm m))) in *.
  assert (Hg : mget "_Range" (pm m') = Some (ptInt, map VInt (map (view k) l))) by (cbn [m' set_pm pm]; apply mget_put_same).
  assert (Hr : forall k', range_name k' -> apiGetInt s' h k' i = Ok (peSuccess, view k' (view k z))).
  { intros k' Hk'. rewrite getInt_Range by auto. rewrite (get_ok s' h "_Range" i ptInt m' I' C1). unfold lookup_at.
    change (pe m') with (pe m). rewrite He, Hg, !nthz_map, Hi. reflexivity. }
  assert (Ho : range_name (other_name k)) by (destruct Hk; subst; unfold range_name; cbn; auto).
  split.
  - rewrite (Hr k Hk). f_equal. f_equal. unfold view. destruct (String.eqb k "_ColorRange"); [apply flip_flip|auto].
  - rewrite (Hr _ Ho). f_equal. f_equal. destruct Hk; subst; reflexivity.
Qed.

(** The bulk reader agrees with the element reader on a single 0 or 1. *)
Lemma alias_bulk : forall os s sp h m k z, reached os s sp -> p_at sp h = Some m -> pe m = false -> range_name k -> z = 0 \/ z = 1 ->
  exists s', apiSetIntArray s h k [z] = Ok (s', true) /\ apiGetIntArray s' h k = Ok (peSuccess, Some [z]).
Proof.
  intros os s sp h m k z H Hp He Hk Hz. pose proof (reached_sim _ _ _ H) as [I [N C]]. rewrite <- C in Hp.
  assert (Ek : apiSetIntArray s h k [z] = mapSetArray s h "_Range" ptInt [VInt (view k z)]) by (destruct Hk; subst; reflexivity).
  assert (Hty : Forall (fun v => vtype v = ptInt) [VInt (view k z)]) by (repeat constructor).
  pose proof (setArray_ok s h "_Range" ptInt _ m I Hp Hty) as Hs.
  change (set_array m "_Range" ptInt [VInt (view k z)]) with (Some (set_pm m (mput "_Range" (ptInt, [VInt (view k z)]) (pm m)))) in Hs.
  cbv iota beta in Hs. destruct Hs as [s' [E [I' [N' [C1 C2]]]]]. exists s'. split; [rewrite Ek; exact E|].
  set (m' := set_pm m (mput "_Range" (ptInt, [VInt (view k z)]) (pm m))) in *.
  assert (Hg : mget "_Range" (pm m') = Some (ptInt, [VInt (view k z)])) by (cbn [m' set_pm pm]; apply mget_put_same).
  assert (Eg : apiGetIntArray s' h k = obind (mapGetArray s' h "_Range" ptInt) (fun r =>
    match snd r with None => Ok (fst r, None)
    | Some l => obind (toInts l) (fun zs => Ok (fst r, Some (if isCR k then match zs with [z] => [if flipRangeProperty z =? 1 then 1 else 0] | _ => zs end else zs))) end))
    by (destruct Hk; subst; reflexivity).
  rewrite Eg, (getArray_ok s' h "_Range" ptInt m' I' C1). unfold lookup_all. change (pe m') with (pe m). rewrite He, Hg. cbn [ptype_eqb obind snd fst toInts toInt].
  destruct Hk, Hz; subst; reflexivity.
Qed.
Lemma alias_bulk_refuted : exists s s1 s2, run init [ONew] = Ok (s, [RHandle 0]) /\
  apiSetIntArray s 0 "_ColorRange" [5] = Ok (s1, true) /\ apiGetInt s1 0 "_ColorRange" 0 = Ok (peSuccess, 5) /\
  apiGetIntArray s1 0 "_ColorRange" = Ok (peSuccess, Some [0]) /\
  apiSetIntArray s 0 "_ColorRange" [0; 1] = Ok (s2, true) /\ apiGetInt s2 0 "_ColorRange" 0 = Ok (peSuccess, 0) /\
  apiGetIntArray s2 0 "_ColorRange" = Ok (peSuccess, Some [1; 0]).
Proof. do 3 eexists. repeat split; vm_compute; reflexivity. Qed.
(** A float stored under the old name is reported as absent. *)
Lemma alias_float_refuted : exists s s1, run init [ONew] = Ok (s, [RHandle 0]) /\
  propSetShared s 0 "_ColorRange" (VFloat 7) MReplace = Ok (s1, true) /\
  mapGet s1 0 "_ColorRange" 0 ptFloat = Ok (peSuccess, Some (VFloat 7)) /\
  apiNumElements s1 0 "_ColorRange" = Ok (-1) /\ apiGetType s1 0 "_ColorRange" = Ok None.
Proof. do 2 eexists. repeat split; vm_compute; reflexivity. Qed.

(** Deleting the old name removes both. *)
Lemma alias_delete : forall os s sp h m, reached os s sp -> p_at sp h = Some m ->
  exists s' b, apiDeleteKey s h "_ColorRange" = Ok (s', b) /\ apiNumElements s' h "_Range" = Ok (-1) /\ apiNumElements s' h "_ColorRange" = Ok (-1).
Proof.
  intros os s sp h m H Hp. pose proof (reached_sim _ _ _ H) as [I [N C]]. rewrite <- C in Hp.
  unfold apiDeleteKey. destruct (erase_ok s h "_ColorRange" m I Hp) as [s1 [E1 [I1 [N1 [C1 C1o]]]]]. rewrite E1. cbn [obind isCR String.eqb].
  set (m1 := match mget "_ColorRange" (pm m) with Some _ => set_pm m (mdel "_ColorRange" (pm m)) | None => m end) in *.
  change (isCR "_ColorRange") with true. cbv iota.
  destruct (erase_ok s1 h "_Range" m1 I1 C1) as [s2 [E2 [I2 [N2 [C2 C2o]]]]]. cbn [fst]. rewrite E2. cbn [obind fst snd].
  set (m2 := match mget "_Range" (pm m1) with Some _ => set_pm m1 (mdel "_Range" (pm m1)) | None => m1 end) in *.
  exists s2. eexists. split; [reflexivity|].
  assert (Hs1 : msorted (pm m1)).
  { destruct (contents_some _ _ _ C1) as [j [x [Hh [Hs Ex]]]]. rewrite Ex. cbn [den pm].
    pose proof (iS _ _ _ I1 j) as Hi. rewrite Hs in Hi. destruct Hi as [_ [_ Hsrt]].
    clear - Hsrt. revert Hsrt. generalize (s_map x). intros mm Hs.
    induction Hs; cbn [map]; constructor; auto. rewrite Forall_forall in *. intros p Hp.
    apply in_map_iff in Hp. destruct Hp as [q [<- Hq]]. apply H in Hq. destruct a; exact Hq. }
  assert (Hg : mget "_Range" (pm m2) = None).
  { unfold m2. destruct (mget "_Range" (pm m1)) eqn:Eg; auto. cbn [set_pm pm]. apply mget_del_same. auto. }
  assert (Hn : apiNumElements s2 h "_Range" = Ok (-1)).
  { unfold apiNumElements. change (remapColorRange "_Range") with "_Range". destruct (find_ok s2 h "_Range" m2 I2 C2) as [o [Ef Hf]].
    rewrite Ef. rewrite Hg in Hf. destruct o; cbn in Hf; [contradiction|]. reflexivity. }
  split; auto.
Qed.
