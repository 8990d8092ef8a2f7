(** The map model simulates the value semantics of [MapSpec]. *)
From Coq Require Import ZArith List Lia Bool String Ascii Sorting.Sorted.
From Verif Require Import Common SMap MapSpec MapModel MapLemmas MapLemmas2 MapLemmas3.
Import ListNotations.
Open Scope Z_scope.

(** ** Reading *)
Definition fits (o : option arr) (p : option (ptype * list val)) : Prop :=
  match o, p with
  | Some x, Some (t, l) => arr_ok x /\ a_type x = t /\ elems x = l
  | None, None => True
  | _, _ => False
  end.

Lemma find_ok : forall s h k m, inv s zero zero -> contents s h = Some m ->
  exists o, find s h k = Ok o /\ fits o (mget k (pm m)).
Proof.
  intros s h k m H Hm. destruct (contents_some _ _ _ Hm) as [i [x [Hh [Hs ->]]]].
  unfold find. rewrite (deref_ok _ _ _ _ Hh Hs). cbn [obind snd den pm]. rewrite mget_map.
  destruct (mget k (s_map x)) as [a|] eqn:Eg; cbn [option_map].
  - destruct (entry_here s zero i x k a H zero_nonneg Hs Eg) as [r [y [Ea [Hy _]]]].
    rewrite Ea. exists (Some y). split; auto. unfold dval, aval. rewrite Ea. cbn. auto.
  - exists None. cbn. auto.
Qed.

Lemma ident_valid : forall k, isValidVSMapKey k = identifier k.
Proof.
  assert (Hw : forall c, is_word c = isAlphaNumUnderscore c).
  { intros c. unfold is_word, is_lower, is_upper, is_digit, isAlphaNumUnderscore, chr. reflexivity. }
  assert (Ht : forall t, keyTail t = forallb is_word (list_ascii_of_string t)).
  { induction t; cbn [keyTail list_ascii_of_string forallb]; auto. rewrite IHt. reflexivity. }
  intros [|c t]; [reflexivity|]. unfold isValidVSMapKey, identifier. cbn [list_ascii_of_string forallb].
  rewrite Ht, andb_assoc. f_equal. change (is_word c) with (isAlphaNumUnderscore c).
  unfold isAlphaUnderscore, is_digit, isAlphaNumUnderscore, chr. set (z := Z.of_N (N_of_ascii c)).
  destruct (Z.leb_spec 48 z), (Z.leb_spec z 57), (Z.leb_spec 97 z), (Z.leb_spec z 122), (Z.leb_spec 65 z), (Z.leb_spec z 90), (Z.eqb_spec z 95); cbn; auto; lia.
Qed.

Lemma get_ok : forall s h k i t m, inv s zero zero -> contents s h = Some m ->
  mapGet s h k i t = Ok (lookup_at m k i t).
Proof.
  intros s h k i t m H Hm. pose proof Hm as Hm0. destruct (contents_some _ _ _ Hm) as [j [x [Hh [Hs Ex]]]].
  unfold mapGet, propGetShared, lookup_at. rewrite (deref_ok _ _ _ _ Hh Hs). cbn [obind snd].
  replace (s_err x) with (pe m) by (subst; auto). destruct (pe m); [reflexivity|].
  destruct (find_ok s h k m H Hm0) as [o [Ef Hf]]. rewrite Ef. cbn [obind].
  destruct o as [y|], (mget k (pm m)) as [[t' l]|]; cbn in Hf; try contradiction; [|reflexivity].
  destruct Hf as [Hy [<- <-]]. pose proof (ao_size y Hy) as Hsz.
  destruct (Z.ltb_spec i 0); cbn [orb].
  { replace (nthz (elems y) i) with (@None val); [reflexivity|]. symmetry. apply nthz_None_iff. lia. }
  destruct (Z.leb_spec (a_size y) i).
  { replace (nthz (elems y) i) with (@None val); [reflexivity|]. symmetry. apply nthz_None_iff. lia. }
  destruct (at_elems y i Hy ltac:(lia)) as [v [Ea En]]. rewrite En.
  destruct (ptype_eqb (a_type y) t); cbn [negb obind snd fst]; [|reflexivity]. rewrite Ea. reflexivity.
Qed.

Lemma getArray_ok : forall s h k t m, inv s zero zero -> contents s h = Some m ->
  mapGetArray s h k t = Ok (lookup_all m k t).
Proof.
  intros s h k t m H Hm. pose proof Hm as Hm0. destruct (contents_some _ _ _ Hm) as [j [x [Hh [Hs Ex]]]].
  unfold mapGetArray, propGetShared, lookup_all. rewrite (deref_ok _ _ _ _ Hh Hs). cbn [obind snd].
  replace (s_err x) with (pe m) by (subst; auto). destruct (pe m); [reflexivity|].
  destruct (find_ok s h k m H Hm0) as [o [Ef Hf]]. rewrite Ef. cbn [obind].
  destruct o as [y|], (mget k (pm m)) as [[t' l]|]; cbn in Hf; try contradiction; [|reflexivity].
  destruct Hf as [Hy [<- <-]]. pose proof (ao_size y Hy) as Hsz. pose proof (data_elems y Hy) as Hd.
  cbn [Z.ltb Z.compare orb]. destruct (Z.leb_spec (a_size y) 0).
  - destruct (elems y) as [|v l]; [reflexivity|]. rewrite zlength_cons in Hsz. pose proof (zlength_nonneg _ l). lia.
  - destruct (elems y) as [|v l] eqn:El; [cbn in Hsz; lia|].
    destruct (ptype_eqb (a_type y) t); cbn [negb obind snd fst]; [|reflexivity]. rewrite Hd. reflexivity.
Qed.

Lemma error_ok : forall s h m r, inv s zero zero -> contents s h = Some m -> error_text m = Some r ->
  getErrorMessage s h = Ok r.
Proof.
  intros s h m r H Hm Hr. pose proof Hm as Hm0. destruct (contents_some _ _ _ Hm) as [j [x [Hh [Hs Ex]]]].
  unfold getErrorMessage. rewrite (deref_ok _ _ _ _ Hh Hs). cbn [obind snd]. unfold error_text in Hr.
  replace (s_err x) with (pe m) by (subst; auto). destruct (pe m); [|congruence].
  destruct (find_ok s h "_Error" m H Hm0) as [o [Ef Hf]]. rewrite Ef. cbn [obind].
  destruct o as [y|], (mget "_Error" (pm m)) as [[t' l]|]; cbn in Hf; try contradiction; try discriminate.
  destruct Hf as [Hy [<- <-]]. destruct (a_type y) eqn:Et; try discriminate. cbn [ptype_eqb].
  pose proof (ao_size y Hy) as Hsz. destruct (elems y) as [|v l] eqn:El; [discriminate|].
  rewrite zlength_cons in Hsz. pose proof (zlength_nonneg _ l).
  destruct (at_elems y 0 Hy ltac:(lia)) as [w [Ea En]]. rewrite El, nthz_cons_0 in En. inversion En; subst.
  rewrite Ea. cbn [obind]. destruct w; try discriminate. congruence.
Qed.

(** When the flag is set but no message is stored, reading it is undefined. *)
Lemma error_bad : forall s h m, inv s zero zero -> contents s h = Some m -> error_text m = None ->
  getErrorMessage s h = UB.
Proof.
  intros s h m H Hm Hr. pose proof Hm as Hm0. destruct (contents_some _ _ _ Hm) as [j [x [Hh [Hs Ex]]]].
  unfold getErrorMessage. rewrite (deref_ok _ _ _ _ Hh Hs). cbn [obind snd]. unfold error_text in Hr.
  replace (s_err x) with (pe m) by (subst; auto). destruct (pe m); [|discriminate].
  destruct (find_ok s h "_Error" m H Hm0) as [o [Ef Hf]]. rewrite Ef. cbn [obind].
  destruct o as [y|], (mget "_Error" (pm m)) as [[t' l]|]; cbn in Hf; try contradiction; try reflexivity.
  destruct Hf as [Hy [<- <-]]. destruct (ptype_eqb_spec (a_type y) ptData) as [Et|]; [|reflexivity].
  rewrite Et in Hr. pose proof (ao_size y Hy) as Hsz. destruct (elems y) as [|v l] eqn:El.
  - cbn in Hsz. destruct (ok_cases y Hy) as [[E [Ev _]]|[[E _]|[E _]]]; try lia.
    unfold at_. rewrite E, Ev. reflexivity.
  - pose proof (ao_ty y Hy) as Hty. rewrite El in Hty. inversion Hty; subst. rewrite Et in *.
    destruct v as [| | | |a p|a p]; try discriminate; destruct a; discriminate.
Qed.

(** ** Simulation *)
Definition sim (s : st) (sp : spec) : Prop :=
  inv s zero zero /\ nH s = p_next sp /\ forall h, contents s h = p_at sp h.

Lemma sim_init : sim init s_init.
Proof. split; [apply init_inv|]. split; auto. Qed.

Lemma sim_put : forall s s' sp h m, sim s sp -> inv s' zero zero -> nH s' = nH s -> contents s' h = Some m ->
  (forall h', h' <> h -> contents s' h' = contents s h') -> sim s' (s_put sp h m).
Proof.
  intros s s' sp h m [I [N C]] I' N' Ch Co. split; auto. split; [cbn; congruence|]. intros h'. cbn [s_put p_at].
  destruct (Nat.eqb_spec h' h); [subst; auto|]. rewrite Co by auto. auto.
Qed.

Lemma sim_id : forall s sp h m, sim s sp -> contents s h = Some m -> sim s (s_put sp h m).
Proof. intros s sp h m Hs Hm. eapply (sim_put s s); eauto. apply Hs. Qed.

Lemma setEmpty_ok : forall s h k t m, inv s zero zero -> contents s h = Some m ->
  match set_empty m k t with
  | Some m' => exists s', mapSetEmpty s h k t = Ok (s', true) /\ inv s' zero zero /\ nH s' = nH s /\ contents s' h = Some m' /\
                 (forall h', h' <> h -> contents s' h' = contents s h')
  | None => mapSetEmpty s h k t = Ok (s, false)
  end.
Proof.
  intros s h k t m H Hm. unfold set_empty, mapSetEmpty. rewrite ident_valid. destruct (identifier k); cbn [negb].
  2:{ destruct (contents_some _ _ _ Hm) as [j [x [Hh [Hs Ex]]]]. rewrite (deref_ok _ _ _ _ Hh Hs). reflexivity. }
  destruct (find_ok s h k m H Hm) as [o [Ef Hf]]. rewrite Ef. cbn [obind].
  destruct o as [y|], (mget k (pm m)) as [[t' l]|]; cbn in Hf; try contradiction; [reflexivity|].
  destruct (insertNew_ok s h k (newArr t) m H Hm (newArr_ok t)) as [s' [E [I [N [C1 C2]]]]]. exists s'. auto.
Qed.

Lemma set_ok : forall s h k v md m, inv s zero zero -> contents s h = Some m ->
  match set_value m k v md with
  | Some m' => exists s', propSetShared s h k v md = Ok (s', true) /\ inv s' zero zero /\ nH s' = nH s /\ contents s' h = Some m' /\
                 (forall h', h' <> h -> contents s' h' = contents s h')
  | None => propSetShared s h k v md = Ok (s, false)
  end.
Proof.
  intros s h k v md m H Hm. unfold set_value, propSetShared. rewrite ident_valid. destruct (identifier k) eqn:Ek; cbn [negb].
  2:{ destruct (contents_some _ _ _ Hm) as [j [x [Hh [Hs Ex]]]]. rewrite (deref_ok _ _ _ _ Hh Hs). reflexivity. }
  assert (Hnew : exists s', insertNew s h k (push_back (newArr (vtype v)) v) = Ok (s', true) /\ inv s' zero zero /\ nH s' = nH s /\
     contents s' h = Some (set_pm m (mput k (vtype v, [v]) (pm m))) /\ (forall h', h' <> h -> contents s' h' = contents s h')).
  { destruct (insertNew_ok s h k (push_back (newArr (vtype v)) v) m H Hm) as [s' [E [I [N [C1 C2]]]]].
    { apply push_ok; [apply newArr_ok|reflexivity]. }
    rewrite push_elems in C1 by apply newArr_ok. rewrite push_type in C1. exists s'. auto. }
  destruct md.
  - exact Hnew.
  - destruct (find_ok s h k m H Hm) as [o [Ef Hf]]. rewrite Ef. cbn [obind].
    destruct o as [y|], (mget k (pm m)) as [[t' l]|] eqn:Eg; cbn in Hf; try contradiction; [|exact Hnew].
    destruct Hf as [Hy [Et El]]. rewrite Et. destruct (ptype_eqb_spec t' (vtype v)) as [Ev|]; [|reflexivity].
    apply append_ok; auto.
  - pose proof (setEmpty_ok s h k (vtype v) m H Hm) as He. unfold set_empty in He. rewrite Ek in He. exact He.
Qed.

Lemma setArray_ok : forall s h k t l m, inv s zero zero -> contents s h = Some m -> Forall (fun v => vtype v = t) l ->
  match set_array m k t l with
  | Some m' => exists s', mapSetArray s h k t l = Ok (s', true) /\ inv s' zero zero /\ nH s' = nH s /\ contents s' h = Some m' /\
                 (forall h', h' <> h -> contents s' h' = contents s h')
  | None => mapSetArray s h k t l = Ok (s, false)
  end.
Proof.
  intros s h k t l m H Hm Ht. unfold set_array, mapSetArray. rewrite ident_valid. destruct (identifier k) eqn:Ek; cbn [negb].
  2:{ destruct (contents_some _ _ _ Hm) as [j [x [Hh [Hs Ex]]]]. rewrite (deref_ok _ _ _ _ Hh Hs). reflexivity. }
  destruct (insertNew_ok s h k (arrOf t l) m H Hm (arrOf_ok t l Ht)) as [s' [E [I [N [C1 C2]]]]].
  rewrite arrOf_elems, arrOf_type in C1. exists s'. auto.
Qed.

Lemma step_sim : forall s sp o sp' r, sim s sp -> s_step sp o = Some (sp', r) ->
  exists s', step s o = Ok (s', r) /\ sim s' sp'.
Proof.
  intros s sp o sp' r S E. pose proof S as [I [N C]].
  assert (Hsim : forall P h, match p_at sp h with Some m => P m | None => None end = Some (sp', r) ->
     exists m, contents s h = Some m /\ P m = Some (sp', r)).
  { intros P h HP. rewrite <- C in HP. destruct (contents s h) as [m|]; [eauto|discriminate]. }
  assert (Htry : forall h q (f : outcome (st * bool)),
     match q with
     | Some m' => exists s', f = Ok (s', true) /\ inv s' zero zero /\ nH s' = nH s /\ contents s' h = Some m' /\
                 (forall h', h' <> h -> contents s' h' = contents s h')
     | None => f = Ok (s, false) end -> Some (s_try sp h q) = Some (sp', r) ->
     exists s', obind f (fun r => Ok (fst r, ROk (snd r))) = Ok (s', r) /\ sim s' sp').
  { intros h [m'|] f Hf He; cbn in He.
    - destruct Hf as [s' [Ef [I' [N' [C1 C2]]]]]. rewrite Ef. cbn [obind fst snd]. exists s'.
      inversion He; subst. split; auto. eapply sim_put; eauto.
    - rewrite Hf. inversion He; subst. cbn. eauto. }
  destruct o; cbn [s_step step] in *.
  - destruct (create_ok s I) as [I' [E1 [N' C']]]. destruct (createMap s) as [s' h'] eqn:Ec. cbn [fst snd] in *.
    unfold s_new in E. inversion E; subst. exists s'. rewrite N. split; auto. split; auto. split; [cbn; congruence|].
    intros h. cbn [p_at]. rewrite C', N, C. auto.
  - destruct (Hsim _ _ E) as [m [Hm E']]. unfold s_new in E'. inversion E'; subst.
    destruct (clone_ok s h m I Hm) as [s' [Ec [I' [N' C']]]]. rewrite Ec. cbn [obind fst snd]. exists s'. rewrite N.
    split; auto. split; auto. split; [cbn; congruence|]. intros h'. cbn [p_at]. rewrite C', N, C. auto.
  - destruct (Hsim _ _ E) as [md [Hd E']]. destruct (Hsim _ _ E') as [m [Hm E2]]. inversion E2; subst.
    destruct (assign_ok s dst src md m I Hd Hm) as [s' [Ec [I' [N' C']]]]. rewrite Ec. cbn [obind]. exists s'.
    split; auto. split; auto. split; [cbn; congruence|]. intros h'. cbn [s_put p_at]. rewrite C', C. auto.
  - destruct (Hsim _ _ E) as [m [Hm E']]. inversion E'; subst.
    destruct (free_ok s h m I Hm) as [s' [Ec [I' [N' C']]]]. rewrite Ec. cbn [obind]. exists s'.
    split; auto. split; auto. split; [cbn; congruence|]. intros h'. cbn [s_del p_at]. rewrite C', C. auto.
  - destruct (Hsim _ _ E) as [md [Hd E']]. destruct (Hsim _ _ E') as [m [Hm E2]].
    destruct (Nat.eqb_spec src dst).
    + subst. inversion E2; subst. unfold copyMap. rewrite Nat.eqb_refl.
      destruct (contents_some _ _ _ Hm) as [j [x [Hh [Hs Ex]]]]. rewrite (deref_ok _ _ _ _ Hh Hs). cbn. eauto.
    + inversion E2; subst. destruct (copy_ok' s src dst m md I Hm Hd n) as [s' [Ec [I' [N' [C1 C2]]]]].
      rewrite Ec. cbn [obind]. exists s'. split; auto. eapply sim_put; eauto.
  - destruct (Hsim _ _ E) as [m [Hm E']]. inversion E'; subst.
    destruct (clear_ok s h m I Hm) as [s' [i [Ec [I' [N' [H1 [S1 [C1 C2]]]]]]]]. rewrite Ec. cbn [obind]. exists s'.
    split; auto. eapply sim_put; eauto.
  - destruct (Hsim _ _ E) as [m [Hm E']]. inversion E'; subst.
    destruct (setError_ok s h m msg I Hm) as [s' [Ec [I' [N' [C1 C2]]]]]. rewrite Ec. cbn [obind]. exists s'.
    split; auto. eapply sim_put; eauto.
  - destruct (Hsim _ _ E) as [m [Hm E']]. destruct (erase_ok s h k m I Hm) as [s' [Ec [I' [N' [C1 C2]]]]].
    rewrite Ec. cbn [obind fst snd]. exists s'. destruct (mget k (pm m)).
    + inversion E'; subst. split; auto. eapply sim_put; eauto.
    + inversion E'; subst. split; auto. split; auto. split; [congruence|]. intros h'.
      destruct (Nat.eq_dec h' h); [subst; rewrite C1, <- C; auto|]. rewrite C2 by auto. auto.
  - destruct (Hsim _ _ E) as [m' [Hm E']]. eapply Htry; [|exact E']. apply set_ok; auto.
  - destruct (Hsim _ _ E) as [m [Hm E']]. eapply Htry; [|exact E']. apply setEmpty_ok; auto.
  - destruct (Hsim _ _ E) as [m [Hm E']]. destruct (forallb _ l) eqn:Ef; [|discriminate].
    eapply Htry; [|exact E']. apply setArray_ok; auto. rewrite forallb_forall in Ef. apply Forall_forall.
    intros v Hv. specialize (Ef v Hv). destruct (ptype_eqb_spec (vtype v) t); [auto|discriminate].
  - destruct (Hsim _ _ E) as [m [Hm E']]. rewrite (get_ok s h k i t m I Hm). inversion E'; subst. cbn. eauto.
  - destruct (Hsim _ _ E) as [m [Hm E']]. rewrite (getArray_ok s h k t m I Hm). inversion E'; subst. cbn. eauto.
  - destruct (Hsim _ _ E) as [m [Hm E']]. destruct (find_ok s h k m I Hm) as [o [Ef Hf]]. rewrite Ef. cbn [obind].
    exists s. inversion E'; subst. destruct o as [y|], (mget k (pm m)) as [[t' l]|]; cbn in Hf; try contradiction; auto.
    destruct Hf as [Hy [_ <-]]. rewrite (ao_size y Hy). auto.
  - destruct (Hsim _ _ E) as [m [Hm E']]. destruct (find_ok s h k m I Hm) as [o [Ef Hf]]. rewrite Ef. cbn [obind].
    exists s. inversion E'; subst. destruct o as [y|], (mget k (pm m)) as [[t' l]|]; cbn in Hf; try contradiction; auto.
    destruct Hf as [Hy [<- _]]. auto.
  - destruct (Hsim _ _ E) as [m [Hm E']]. destruct (contents_some _ _ _ Hm) as [j [x [Hh [Hs Ex]]]].
    rewrite (deref_ok _ _ _ _ Hh Hs). cbn [obind snd]. exists s. inversion E'; subst. split; auto.
    cbn [den pm]. rewrite zlength_map. auto.
  - destruct (Hsim _ _ E) as [m [Hm E']]. destruct (contents_some _ _ _ Hm) as [j [x [Hh [Hs Ex]]]].
    rewrite (deref_ok _ _ _ _ Hh Hs). cbn [obind snd]. exists s. inversion E'; subst. split; auto.
    cbn [den pm]. rewrite nthz_map. destruct (nthz (s_map x) n) as [[k a]|]; auto.
  - destruct (Hsim _ _ E) as [m [Hm E']]. destruct (error_text m) as [q|] eqn:Eq; [|discriminate].
    rewrite (error_ok s h m q I Hm Eq). inversion E'; subst. cbn. eauto.
Qed.

Lemma run_sim : forall os s sp sp' rs, sim s sp -> s_run sp os = Some (sp', rs) ->
  exists s', run s os = Ok (s', rs) /\ sim s' sp'.
Proof.
  induction os as [|o t IH]; intros s sp sp' rs S E; cbn [s_run run] in *.
  - inversion E; subst. eauto.
  - destruct (s_step sp o) as [[sp1 r]|] eqn:Es; [|discriminate].
    destruct (s_run sp1 t) as [[sp2 rs2]|] eqn:Er; [|discriminate]. inversion E; subst.
    destruct (step_sim s sp o sp1 r S Es) as [s1 [E1 S1]]. destruct (IH s1 sp1 sp' rs2 S1 Er) as [s2 [E2 S2]].
    exists s2. rewrite E1. cbn [obind fst snd]. rewrite E2. auto.
Qed.

(** Conversely: whatever the specification does not allow is undefined in the
    model, except an array whose elements have the wrong type (which the C types
    rule out). *)
Definition welltyped (o : mop) : bool :=
  match o with OArray _ _ t l => forallb (fun v => ptype_eqb (vtype v) t) l | _ => true end.

Lemma dead_deref : forall s sp h, sim s sp -> p_at sp h = None -> deref s h = UB.
Proof.
  intros s sp h [I [N C]] Hp. rewrite <- C in Hp. unfold contents in Hp. unfold deref.
  destruct (hands s h) as [i|] eqn:Eh; auto. destruct (hand_alive _ _ _ _ I Eh) as [x Ex]. rewrite Ex in *. discriminate.
Qed.
Lemma dead_find : forall s h k, deref s h = UB -> find s h k = UB.
Proof. intros s h k E. unfold find. rewrite E. auto. Qed.
Lemma dead_insertNew : forall s h k x, deref s h = UB -> insertNew s h k x = UB.
Proof.
  intros s h k x E. unfold insertNew, allocA. unfold insert, detach. unfold deref in *. cbn [hands stos].
  destruct (hands s h) as [i|]; auto. destruct (stos s i); [discriminate|auto].
Qed.
Lemma dead_setEmpty : forall s h k t, deref s h = UB -> mapSetEmpty s h k t = UB.
Proof. intros. unfold mapSetEmpty. rewrite H, dead_find by auto. destruct (negb _); auto. Qed.
Lemma dead_detach : forall s h, deref s h = UB -> detach s h = UB.
Proof. intros. unfold detach. rewrite H. auto. Qed.

Lemma step_dead : forall s sp o, sim s sp -> welltyped o = true -> s_step sp o = None -> step s o = UB.
Proof.
  intros s sp o S W E. pose proof S as [I [N C]].
  assert (Hd : forall h, p_at sp h = None -> deref s h = UB) by (intros; eapply dead_deref; eauto).
  destruct o; cbn [s_step step] in *; try discriminate.
  - destruct (p_at sp h) eqn:Ep; [discriminate|]. unfold cloneMap. rewrite Hd by auto. auto.
  - unfold assignMap. destruct (p_at sp dst) eqn:Ep.
    + destruct (p_at sp src) eqn:Ep2; [discriminate|].
      rewrite (Hd src) by auto. rewrite <- C in Ep. destruct (contents_some _ _ _ Ep) as [j [x [Hh [Hs Ex]]]].
      rewrite (deref_ok _ _ _ _ Hh Hs). reflexivity.
    + rewrite (Hd dst) by auto. auto.
  - destruct (p_at sp h) eqn:Ep; [discriminate|]. unfold freeMap. rewrite Hd by auto. auto.
  - unfold copyMap. destruct (p_at sp dst) eqn:Ep.
    + destruct (p_at sp src) eqn:Ep2; [discriminate|]. destruct (Nat.eqb_spec src dst); [congruence|].
      rewrite <- C in Ep. destruct (contents_some _ _ _ Ep) as [i0 [x0 [Hh [Hx ->]]]].
      destruct (detach_ok _ _ _ _ _ I zero_nonneg Hh Hx) as [s1 [i [x [E1 [I1 [N1 [N2 [H1 [S1 [R1 [M1 [Er1 [A1 [C1 D1]]]]]]]]]]]]]].
      rewrite E1. cbn [obind]. rewrite <- C in Ep2. unfold deref.
      assert (Hn : hands s1 src = None).
      { apply D1. unfold contents in Ep2. destruct (hands s src) as [j|] eqn:Ej; auto.
        destruct (hand_alive _ _ _ _ I Ej) as [y Ey]. rewrite Ey in Ep2. discriminate. }
      rewrite Hn. reflexivity.
    + destruct (Nat.eqb src dst); [rewrite Hd by auto; auto|]. rewrite dead_detach by auto. auto.
  - destruct (p_at sp h) eqn:Ep; [discriminate|]. unfold clear. rewrite Hd by auto. auto.
  - destruct (p_at sp h) eqn:Ep; [discriminate|]. unfold setError, clear. rewrite Hd by auto. auto.
  - destruct (p_at sp h) eqn:Ep; [discriminate|]. unfold erase. rewrite Hd by auto. auto.
  - destruct (p_at sp h) eqn:Ep; [discriminate|]. unfold propSetShared. rewrite Hd by auto.
    destruct (negb _); auto. destruct m; [rewrite dead_insertNew|rewrite dead_find|rewrite dead_setEmpty]; auto.
  - destruct (p_at sp h) eqn:Ep; [discriminate|]. rewrite dead_setEmpty by auto. auto.
  - cbn [welltyped] in W. rewrite W in E. destruct (p_at sp h) eqn:Ep; [discriminate|].
    unfold mapSetArray. rewrite Hd by auto. rewrite dead_insertNew by auto. destruct (negb _); auto.
  - destruct (p_at sp h) eqn:Ep; [discriminate|]. unfold mapGet, propGetShared. rewrite Hd by auto. auto.
  - destruct (p_at sp h) eqn:Ep; [discriminate|]. unfold mapGetArray, propGetShared. rewrite Hd by auto. auto.
  - destruct (p_at sp h) eqn:Ep; [discriminate|]. rewrite dead_find by auto. auto.
  - destruct (p_at sp h) eqn:Ep; [discriminate|]. rewrite dead_find by auto. auto.
  - destruct (p_at sp h) eqn:Ep; [discriminate|]. rewrite Hd by auto. auto.
  - destruct (p_at sp h) eqn:Ep; [discriminate|]. rewrite Hd by auto. auto.
  - destruct (p_at sp h) eqn:Ep.
    + destruct (error_text p) eqn:Ee; [discriminate|]. rewrite <- C in Ep. rewrite (error_bad s h p I Ep Ee). auto.
    + unfold getErrorMessage. rewrite Hd by auto. auto.
Qed.
