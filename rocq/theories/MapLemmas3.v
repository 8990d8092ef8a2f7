(** Every map operation acts on the contents of one handle only (continued),
    and the model simulates the value semantics. *)
From Coq Require Import ZArith List Lia Bool String Ascii Sorting.Sorted.
From Verif Require Import Common SMap MapSpec MapModel MapLemmas MapLemmas2.
Import ListNotations.
Open Scope Z_scope.

Lemma mput_same : forall A k (v : A) m, msorted m -> mget k m = Some v -> mput k v m = m.
Proof.
  induction m as [|[k' v'] t IH]; intros Hs Hg; cbn [mget mput] in *; [discriminate|]. inversion Hs; subst.
  destruct (String.eqb_spec k k').
  - subst. rewrite scmp_refl. inversion Hg; subst. auto.
  - destruct (String.compare k k') eqn:E.
    + apply String.compare_eq_iff in E. contradiction.
    + rewrite mget_below in Hg; [discriminate|]. intros p Hp. rewrite Forall_forall in H2. apply H2 in Hp. eapply scmp_trans; eauto.
    + rewrite IH; auto.
Qed.

Lemma entry_here : forall s eA i x k a, inv s eA zero -> nonneg eA -> stos s i = Some x -> mget k (s_map x) = Some a ->
  exists r y, arrs s a = Some (r, y) /\ arr_ok y /\ r = cntA s a + eA a /\ 1 <= cntA s a.
Proof.
  intros s eA i x k a H He Hs Hg. pose proof (mget_in _ _ _ _ Hg) as Hin.
  assert (Ha : In a (map snd (s_map x))) by (apply in_map_iff; exists (k, a); auto).
  pose proof (cntA_ge s i x a (alive_lt_S _ _ _ _ _ H Hs) Hs Ha). specialize (He a).
  destruct (inv_A_alive s eA zero a H) as [r [y [E [Hy [Hr _]]]]]; [lia|]. exists r, y. auto.
Qed.

Lemma allocA_contents : forall s x, inv s zero zero ->
  forall h', contents (fst (allocA s x)) h' = contents s h'.
Proof.
  intros s x H h'. unfold allocA. cbn [fst]. unfold contents. cbn [hands stos]. destruct (hands s h') as [i|]; auto.
  destruct (stos s i) as [y|] eqn:Ey; auto. f_equal. apply den_eq; auto. intros a Ha.
  unfold aval. cbn [arrs]. unfold fset. destruct (Nat.eqb_spec a (nA s)); auto. subst.
  pose proof (entry_alive _ _ _ _ _ _ H zero_nonneg Ey Ha) as Hal. unfold aval in Hal.
  rewrite (iAn _ _ _ H (nA s)) in Hal by auto. contradiction Hal; auto.
Qed.

(** Replacing an entry of a storage used by [h] alone. *)
Lemma put_contents : forall s1 s' eA eA' h i x k a, inv s1 eA zero -> nonneg eA -> inv s' eA' zero -> nonneg eA' ->
  hands s1 h = Some i -> stos s1 i = Some x -> s_ref x = 1 ->
  hands s' = hands s1 -> stos s' = fset (stos s1) i (Some (with_map x (mput k a (s_map x)))) ->
  (forall b, aval s' b = aval s1 b \/ aval s' b = None) ->
  contents s' h = Some (set_pm (den s1 x) (mput k (dval s1 a) (pm (den s1 x)))) /\
  (forall h', h' <> h -> contents s' h' = contents s1 h') /\ aval s' a = aval s1 a.
Proof.
  intros s1 s' eA eA' h i x k a I1 He I' He' H1 S1 R1 E'2 E'1 Hav.
  set (x2 := with_map x (mput k a (s_map x))) in *.
  pose proof (iS _ _ _ I1 i) as Hsrt. rewrite S1 in Hsrt. destruct Hsrt as [_ [_ Hsrt]].
  assert (Hs' : stos s' i = Some x2) by (rewrite E'1; unfold fset; rewrite Nat.eqb_refl; auto).
  assert (Hlive : forall b, In b (map snd (s_map x2)) -> aval s' b = aval s1 b).
  { intros b Hb. pose proof (entry_alive _ _ _ _ _ _ I' He' Hs' Hb). destruct (Hav b) as [Eb|Eb]; [|contradiction]. auto. }
  assert (Haa : aval s' a = aval s1 a).
  { apply Hlive. apply in_map_iff. exists (k, a). split; auto. cbn [x2 with_map s_map]. apply in_mput_self. }
  split; [|split; auto].
  - unfold contents. rewrite E'2. rewrite H1, Hs'. f_equal. unfold den, set_pm.
    cbn [x2 with_map s_map s_err pm pe]. f_equal. rewrite mput_map.
    replace (dval s' a) with (dval s1 a) by (unfold dval; rewrite Haa; auto).
    apply mput_agree; [auto|]. intros p Hp Hne. unfold dval. rewrite Hlive; auto.
    apply in_map_iff. exists p. split; auto. cbn [x2 with_map s_map]. apply in_mput_other; auto.
  - intros h' Hne. eapply (others_same s1 s' eA eA' h i x); eauto.
    + intros. rewrite E'2. reflexivity.
    + intros j Hj _. rewrite E'1. unfold fset. apply Nat.eqb_neq in Hj. rewrite Hj. auto.
    + intros b Hb. destruct (Hav b) as [Eb|Eb]; [right|left]; auto.
Qed.

Lemma contents_at : forall s h i x, hands s h = Some i -> stos s i = Some x -> contents s h = Some (den s x).
Proof. intros s h i x E1 E2. unfold contents. rewrite E1, E2. auto. Qed.

(** ** detach(key) *)
Lemma detachKey_ok : forall s h k m t l, inv s zero zero -> contents s h = Some m -> mget k (pm m) = Some (t, l) ->
  exists s' i x a y, detachKey s h k = Ok (s', Some a) /\ inv s' zero zero /\ nH s' = nH s /\
    (forall h', contents s' h' = contents s h') /\ hands s' h = Some i /\ stos s' i = Some x /\ s_ref x = 1 /\
    mget k (s_map x) = Some a /\ arrs s' a = Some (1, y) /\ arr_ok y /\ a_type y = t /\ elems y = l.
Proof.
  intros s h k m t l H Hm Hg. destruct (contents_some _ _ _ Hm) as [i0 [x0 [Hh [Hs ->]]]].
  cbn [den pm] in Hg. rewrite mget_map in Hg. destruct (mget k (s_map x0)) as [a|] eqn:Eg; [|discriminate].
  cbn [option_map] in Hg. inversion Hg as [Hd]; clear Hg.
  destruct (detach_ok _ _ _ _ _ H zero_nonneg Hh Hs) as [s1 [i [x [E1 [I1 [N1 [N2 [H1 [S1 [R1 [M1 [Er1 [A1 [C1 D1]]]]]]]]]]]]]].
  unfold detachKey. rewrite E1. cbn [obind]. rewrite (deref_ok _ _ _ _ H1 S1). cbn [obind]. rewrite M1, Eg.
  pose proof (iS _ _ _ I1 i) as Hsrt. rewrite S1 in Hsrt. destruct Hsrt as [_ [_ Hsrt]].
  destruct (entry_here s1 zero i x k a I1 zero_nonneg S1) as [r [y [Ea [Hy [Hr Hc]]]]]; [rewrite M1; auto|].
  assert (Hdy : a_type y = t /\ elems y = l).
  { unfold dval in Hd. rewrite <- A1 in Hd. unfold aval in Hd. rewrite Ea in Hd. cbn [option_map snd] in Hd. inversion Hd; auto. }
  rewrite Ea. destruct (Z.eqb_spec r 1).
  - subst r. exists s1, i, x, a, y. rewrite e in Ea. destruct Hdy. rewrite <- M1 in Eg.
    do 11 (split; [solve [auto|congruence]|]). auto.
  - unfold allocA.
    pose proof (allocA_inv s1 zero zero (copyArr y) I1 (copy_ok y Hy)) as I2.
    pose proof (allocA_contents s1 (copyArr y) I1) as C2.
    unfold allocA in I2, C2. cbn [fst] in I2, C2.
    set (s2 := {| nA := S (nA s1); arrs := fset (arrs s1) (nA s1) (Some (1, copyArr y)); nS := nS s1; stos := stos s1; nH := nH s1; hands := hands s1 |}) in *.
    set (x2 := with_map x (mput k (nA s1) (s_map x0))).
    assert (Hx2 : msorted (s_map x2)) by (cbn [x2 with_map s_map]; apply mput_sorted; rewrite <- M1; auto).
    assert (S2 : stos s2 i = Some x) by auto.
    pose proof (putS_inv s2 _ _ i x x2 I2 S2 eq_refl Hx2) as I3.
    set (s3 := putS s2 i x2) in *.
    assert (I3' : inv s3 (fun b => d b a) zero).
    { eapply inv_ext; [exact I3| |auto]. intros b. cbv beta. cbn [x2 with_map s_map]. rewrite <- M1, cntl_mput by auto.
      rewrite M1, Eg. cbn [dopt]. unfold zero. lia. }
    destruct (releaseA_inv s3 _ _ a I3') as [s4 [E4 [I4 [B1 [B2 [B3 [B4 [B5 B6]]]]]]]].
    { rewrite d_same. pose proof (cntA_nonneg s3 a). lia. }
    rewrite E4. cbn [obind].
    assert (I4' : inv s4 zero zero) by (eapply inv_ext; [exact I4| |auto]; intros b; cbv beta; unfold zero; lia).
    assert (He2 : nonneg (fun b => zero b + d b (nA s1))) by (intros b; cbv beta; unfold zero; pose proof (d_nonneg b (nA s1)); lia).
    destruct (put_contents s2 s4 _ zero h i x k (nA s1) I2 He2 I4' zero_nonneg H1 S2 R1) as [P1 [P2 P3]].
    { rewrite B2. reflexivity. } { rewrite B1. cbn [s3 putS w_stos stos s2 x2]. rewrite M1. reflexivity. }
    { intros b. destruct (B6 b) as [Eb|[Eb _]]; auto. }
    assert (Hn : aval s2 (nA s1) = Some (copyArr y)).
    { unfold aval. cbn [s2 arrs]. unfold fset. rewrite Nat.eqb_refl. auto. }
    rewrite Hn in P3. unfold aval in P3. destruct (arrs s4 (nA s1)) as [[r' y']|] eqn:En; [|discriminate].
    cbn [option_map snd] in P3. inversion P3; subst y'.
    assert (S4 : stos s4 i = Some x2) by (rewrite B1; cbn [s3 putS w_stos stos]; unfold fset; rewrite Nat.eqb_refl; auto).
    assert (Hr4 : r' = 1).
    { pose proof (iA _ _ _ I4' (nA s1)) as Hia. rewrite En in Hia. destruct Hia as [Hia _]. rewrite Hia.
      (* the only pointer to the new array is the one just stored *)
      pose proof (iA _ _ _ I2 (nA s1)) as Hib. cbn [s2 arrs] in Hib. unfold fset in Hib. rewrite Nat.eqb_refl in Hib.
      destruct Hib as [Hib _]. rewrite d_same in Hib.
      assert (Hc4 : cntA s4 (nA s1) = cntA s2 (nA s1) - cntl (nA s1) (map snd (s_map x)) + cntl (nA s1) (map snd (s_map x2))).
      { unfold cntA. rewrite B3. change (nS s3) with (nS s2).
        rewrite (sumto_upd (nS s2) i (fun i => wA (stos s2 i) (nA s1))); auto.
        - rewrite S4, S2. reflexivity.
        - eapply alive_lt_S; eauto.
        - intros j Hj. rewrite B1. cbn [s3 putS w_stos stos]. unfold fset. apply Nat.eqb_neq in Hj. rewrite Hj. auto. }
      rewrite Hc4. cbn [x2 with_map s_map]. rewrite <- M1, cntl_mput by auto. rewrite M1, Eg. cbn [dopt]. rewrite d_same.
      assert (nA s1 <> a). { intro Hx. rewrite <- Hx in Ea. rewrite (iAn _ _ _ I1 (nA s1)) in Ea by auto. discriminate. }
      rewrite d_diff by auto. unfold zero in *. lia. }
    exists s4, i, x2, (nA s1), (copyArr y). destruct Hdy.
    split; [auto|]. split; [auto|]. split; [rewrite B4; auto|]. split.
    { intros h'. destruct (Nat.eq_dec h' h).
      - subst h'. rewrite P1. change (contents s h) with (contents s h). rewrite <- C1, <- C2.
        rewrite (contents_at s2 h i x) by auto. f_equal. unfold set_pm. unfold den. cbn [pm pe]. f_equal.
        apply mput_same.
        + clear - Hsrt. revert Hsrt. generalize (s_map x). intros mm Hs.
          induction Hs; cbn [map]; constructor; auto. rewrite Forall_forall in *. intros p Hp.
          apply in_map_iff in Hp. destruct Hp as [q [<- Hq]]. apply H in Hq. destruct a; exact Hq.
        + rewrite mget_map, M1, Eg. cbn [option_map]. f_equal. unfold dval. rewrite Hn.
          assert (Ha2 : aval s2 a = Some y).
          { unfold aval. cbn [s2 arrs]. unfold fset. destruct (Nat.eqb_spec a (nA s1)); [|rewrite Ea; auto].
            rewrite e, (iAn _ _ _ I1 (nA s1)) in Ea by auto. discriminate. }
          rewrite Ha2. rewrite copy_elems by auto. reflexivity.
      - rewrite P2 by auto. rewrite C2. apply C1. }
    split; [rewrite B2; auto|]. split; [exact S4|]. split; [exact R1|]. split.
    { cbn [x2 with_map s_map]. apply mget_put_same. }
    split; [rewrite <- Hr4; auto|]. split; [apply copy_ok; auto|]. split; [auto|]. rewrite copy_elems by auto. auto.
Qed.

(** ** push_back into an array used by one entry only *)
Lemma sole_entry : forall s i x k a, inv s zero zero -> stos s i = Some x -> mget k (s_map x) = Some a -> cntA s a = 1 ->
  (forall j y, j <> i -> stos s j = Some y -> ~ In a (map snd (s_map y))) /\
  (forall p, In p (s_map x) -> fst p <> k -> snd p <> a).
Proof.
  intros s i x k a H Hs Hg Hc. pose proof (mget_in _ _ _ _ Hg) as Hin.
  assert (Ha : In a (map snd (s_map x))) by (apply in_map_iff; exists (k, a); auto).
  pose proof (cntl_in _ _ Ha) as Hone. pose proof (alive_lt_S _ _ _ _ _ H Hs) as Hi. split.
  - intros j y Hj Hy Hin'. pose proof (cntl_in _ _ Hin'). pose proof (alive_lt_S _ _ _ _ _ H Hy).
    pose proof (sumto_ge2 (nS s) i j (fun i => wA (stos s i) a) (fun _ => wA_nonneg _ _) Hi H1 ltac:(auto)) as Hge.
    cbv beta in Hge. rewrite Hs, Hy in Hge. cbn [wA] in Hge. unfold cntA in Hc. lia.
  - intros p Hp Hne He.
    pose proof (sumto_ge (nS s) i (fun i => wA (stos s i) a) (fun _ => wA_nonneg _ _) Hi) as Hge.
    cbv beta in Hge. rewrite Hs in Hge. cbn [wA] in Hge. unfold cntA in Hc.
    pose proof (cntl_mdel k (s_map x) a) as Hd. rewrite Hg in Hd. cbn [dopt] in Hd. rewrite d_same in Hd.
    pose proof (in_mdel_other _ k _ _ Hp Hne) as Hq.
    assert (In a (map snd (mdel k (s_map x)))) by (apply in_map_iff; exists p; auto).
    pose proof (cntl_in _ _ H0). lia.
Qed.

Lemma append_ok : forall s h k m t l v, inv s zero zero -> contents s h = Some m -> mget k (pm m) = Some (t, l) -> vtype v = t ->
  exists s', obind (detachKey s h k) (fun r =>
        match snd r with
        | None => UB
        | Some a => match arrs (fst r) a with
                    | None => UB
                    | Some (c, y) => Ok (w_arrs (fst r) (fset (arrs (fst r)) a (Some (c, push_back y v))), true)
                    end
        end) = Ok (s', true) /\ inv s' zero zero /\ nH s' = nH s /\
    contents s' h = Some (set_pm m (mput k (t, l ++ [v]) (pm m))) /\
    (forall h', h' <> h -> contents s' h' = contents s h').
Proof.
  intros s h k m t l v H Hm Hg Hv.
  destruct (detachKey_ok s h k m t l H Hm Hg) as [s1 [i [x [a [y [E [I [N [C [H1 [S1 [R1 [G1 [A1 [Hy [Ht Hl]]]]]]]]]]]]]]]].
  rewrite E. cbn [obind snd fst]. rewrite A1. eexists; split; [reflexivity|].
  set (s2 := w_arrs s1 (fset (arrs s1) a (Some (1, push_back y v)))).
  assert (Hc1 : cntA s1 a = 1).
  { pose proof (iA _ _ _ I a) as Hia. rewrite A1 in Hia. destruct Hia as [Hia _]. unfold zero in Hia. lia. }
  assert (I2 : inv s2 zero zero).
  { pose proof I as I0. destruct I as [J1 J2 J3 J4 J5]. constructor; cbn [s2 w_arrs nA arrs nS stos nH hands]; auto.
    - intros b. change (cntA (w_arrs s1 _) b) with (cntA s1 b). change (cntA s2 b) with (cntA s1 b). unfold fset.
      destruct (Nat.eqb_spec b a); [|apply J1]. subst b. specialize (J1 a). rewrite A1 in J1. destruct J1 as [Q1 [Q2 Q3]].
      split; [auto|]. split; [auto|]. apply push_ok; auto. congruence.
    - intros b Hb. unfold fset. destruct (Nat.eqb_spec b a); [|auto]. subst. rewrite J3 in A1 by auto. discriminate. }
  split; [exact I2|]. split; [exact N|].
  destruct (sole_entry s1 i x k a I S1 G1 Hc1) as [O1 O2].
  assert (Hav : forall b, b <> a -> aval s2 b = aval s1 b).
  { intros b Hb. unfold aval. cbn [s2 w_arrs arrs]. unfold fset. apply Nat.eqb_neq in Hb. rewrite Hb. auto. }
  pose proof (iS _ _ _ I i) as Hsrt. rewrite S1 in Hsrt. destruct Hsrt as [_ [_ Hsrt]].
  split.
  - pose proof (C h) as Ch. rewrite Hm in Ch. rewrite (contents_at s1 h i x) in Ch by auto. inversion Ch as [Em].
    change (contents s2 h = Some (set_pm (den s1 x) (mput k (t, l ++ [v]) (pm (den s1 x))))).
    rewrite (contents_at s2 h i x) by auto. f_equal. unfold set_pm, den. cbn [pm pe]. f_equal.
    rewrite <- (mput_same _ k a (s_map x) Hsrt G1) at 1. rewrite mput_map.
    assert (Ed : dval s2 a = (t, l ++ [v])).
    { unfold dval, aval. cbn [s2 w_arrs arrs]. unfold fset. rewrite Nat.eqb_refl. cbn [option_map snd].
      rewrite push_type, Ht, push_elems, Hl by auto. auto. }
    rewrite Ed. apply mput_agree; auto. intros p Hp Hne. unfold dval. rewrite Hav; auto. 
  - intros h' Hne. rewrite <- C. unfold contents. change (hands s2) with (hands s1). change (stos s2) with (stos s1).
    destruct (hands s1 h') as [j|] eqn:Ej; auto. destruct (stos s1 j) as [z|] eqn:Ez; auto. f_equal. apply den_eq; auto.
    intros b Hb. apply Hav. intro; subst b.
    assert (j <> i) by (intro; subst; eapply (excl s1 zero h i x h'); eauto).
    eapply O1; eauto.
Qed.

(** ** copy *)
Lemma assignEntry_ok : forall s h i x k a j y, inv s zero zero -> hands s h = Some i -> stos s i = Some x -> s_ref x = 1 ->
  j <> i -> stos s j = Some y -> In a (map snd (s_map y)) ->
  exists s', assignEntry s h k a = Ok s' /\ inv s' zero zero /\ nH s' = nH s /\ hands s' = hands s /\
    stos s' i = Some (with_map x (mput k a (s_map x))) /\ (forall j, j <> i -> stos s' j = stos s j) /\
    contents s' h = Some (set_pm (den s x) (mput k (dval s a) (pm (den s x)))) /\
    (forall h', h' <> h -> contents s' h' = contents s h') /\ (forall b, aval s' b = aval s b \/ aval s' b = None).
Proof.
  intros s h i x k a j y H Hh Hs Hr Hj Hy Hin. unfold assignEntry. rewrite (deref_ok _ _ _ _ Hh Hs). cbn [obind].
  pose proof (iS _ _ _ H i) as Hsrt. rewrite Hs in Hsrt. destruct Hsrt as [_ [_ Hsrt]].
  set (x2 := with_map x (mput k a (s_map x))).
  pose proof (putS_inv s _ _ i x x2 H Hs eq_refl (mput_sorted _ k a _ Hsrt)) as I2.
  set (s2 := putS s i x2) in *.
  assert (I2' : inv s2 (fun b => dopt b (mget k (s_map x)) - d b a) zero).
  { eapply inv_ext; [exact I2| |auto]. intros b. cbv beta. cbn [x2 with_map s_map]. rewrite cntl_mput by auto. unfold zero. lia. }
  assert (S2 : stos s2 i = Some x2) by (cbn [s2 putS w_stos stos]; unfold fset; rewrite Nat.eqb_refl; auto).
  assert (S2j : stos s2 j = Some y).
  { cbn [s2 putS w_stos stos]. unfold fset. apply Nat.eqb_neq in Hj. rewrite Hj. auto. }
  (* the array is held by both storages *)
  assert (Htwo : 2 <= cntA s2 a).
  { pose proof (sumto_ge2 (nS s2) i j (fun i => wA (stos s2 i) a) (fun _ => wA_nonneg _ _)
      (alive_lt_S _ _ _ _ _ I2 S2) (alive_lt_S _ _ _ _ _ I2 S2j) ltac:(auto)) as Hge.
    cbv beta in Hge. rewrite S2, S2j in Hge. cbn [wA] in Hge.
    pose proof (cntl_in a (map snd (s_map x2))) as Hc2. pose proof (cntl_in _ _ Hin). unfold cntA.
    assert (In a (map snd (s_map x2))) by (apply in_map_iff; exists (k, a); split; auto; apply in_mput_self).
    specialize (Hc2 H1). lia. }
  assert (Hold : exists s3, (match mget k (s_map x) with Some old => releaseA s2 old | None => Ok s2 end) = Ok s3 /\
     inv s3 (fun b => - d b a) zero /\ stos s3 = stos s2 /\ hands s3 = hands s2 /\ nS s3 = nS s2 /\ nH s3 = nH s2 /\
     (forall b, aval s3 b = aval s2 b \/ aval s3 b = None)).
  { destruct (mget k (s_map x)) as [old|] eqn:Eg; cbn [dopt] in I2'.
    - destruct (releaseA_inv s2 _ _ old I2') as [s3 [E3 [I3 [B1 [B2 [B3 [B4 [B5 B6]]]]]]]].
      { destruct (Nat.eq_dec old a).
        - subst. lia.
        - rewrite d_same, d_diff by auto. pose proof (cntA_nonneg s2 old). lia. }
      exists s3. split; auto. split. { eapply inv_ext; [exact I3| |auto]. intros b. cbv beta. lia. }
      do 4 (split; [auto|]). intros b. destruct (B6 b) as [Eb|[Eb _]]; auto.
    - exists s2. split; auto. split. { eapply inv_ext; [exact I2'| |auto]. intros b. cbv beta. lia. }
      do 4 (split; [auto|]). auto. }
  destruct Hold as [s3 [E3 [I3 [B1 [B2 [B3 [B4 B6]]]]]]]. fold s2. rewrite E3. cbn [obind].
  destruct (addrefA_inv s3 _ _ a I3) as [s4 [E4 [I4 [D1 [D2 [D3 [D4 [D5 D6]]]]]]]].
  { rewrite d_same. replace (cntA s3 a) with (cntA s2 a); [lia|]. unfold cntA. rewrite B1, B3. auto. }
  assert (I4' : inv s4 zero zero) by (eapply inv_ext; [exact I4| |auto]; intros b; cbv beta; unfold zero; lia).
  assert (Hav : forall b, aval s4 b = aval s b \/ aval s4 b = None).
  { intros b. rewrite D6. destruct (B6 b) as [Eb|Eb]; rewrite Eb; auto. }
  rewrite E4. exists s4. split; auto. split; auto. split; [rewrite D4, B4; auto|].
  split; [rewrite D2, B2; auto|]. split; [rewrite D1, B1; auto|]. split.
  { intros j' Hj'. rewrite D1, B1. cbn [s2 putS w_stos stos]. unfold fset. apply Nat.eqb_neq in Hj'. rewrite Hj'. auto. }
  destruct (put_contents s s4 zero zero h i x k a H zero_nonneg I4' zero_nonneg Hh Hs Hr) as [P1 [P2 P3]]; auto.
  { rewrite D2, B2. reflexivity. } { rewrite D1, B1. reflexivity. }
Qed.

Lemma assignEntries_ok : forall l s h i x j y, inv s zero zero -> hands s h = Some i -> stos s i = Some x -> s_ref x = 1 ->
  j <> i -> stos s j = Some y -> (exists g, hands s g = Some j) -> incl (map snd l) (map snd (s_map y)) ->
  exists s', assignEntries s h l = Ok s' /\ inv s' zero zero /\ nH s' = nH s /\
    contents s' h = Some (set_pm (den s x) (fold_left (fun m p => mput (fst p) (snd p) m) (map (fun p => (fst p, dval s (snd p))) l) (pm (den s x)))) /\
    (forall h', h' <> h -> contents s' h' = contents s h').
Proof.
  induction l as [|[k a] t IH]; intros s h i x j y H Hh Hs Hr Hj Hy Hg Hin; cbn [assignEntries map fold_left fst snd].
  - exists s. split; auto. split; auto. split; auto. split; auto. rewrite (contents_at s h i x) by auto. f_equal.
  - destruct (assignEntry_ok s h i x k a j y H Hh Hs Hr Hj Hy) as [s1 [E1 [I1 [N1 [H1 [S1 [S1o [C1 [C1o A1]]]]]]]]].
    { apply Hin. left. auto. }
    rewrite E1. cbn [obind].
    destruct (IH s1 h i (with_map x (mput k a (s_map x))) j y) as [s2 [E2 [I2 [N2 [C2 C2o]]]]]; auto.
    { rewrite H1. auto. } { rewrite S1o; auto. } { rewrite H1. auto. }
    { intros b Hb. apply Hin. right. auto. }
    exists s2. split; auto. split; auto. split; [congruence|]. split.
    + rewrite C2. f_equal.
      rewrite (contents_at s1 h i (with_map x (mput k a (s_map x)))) in C1 by (auto; rewrite H1; auto).
      assert (E : den s1 (with_map x (mput k a (s_map x))) = set_pm (den s x) (mput k (dval s a) (pm (den s x)))) by congruence. rewrite E.
      assert (Hmap : map (fun p : string * nat => (fst p, dval s1 (snd p))) t = map (fun p : string * nat => (fst p, dval s (snd p))) t).
      { apply map_ext_in. intros p Hp. f_equal. unfold dval. destruct (A1 (snd p)) as [Ep|Ep]; [rewrite Ep; auto|].
        exfalso. assert (Hb : In (snd p) (map snd (s_map y))). { apply Hin. right. apply in_map. auto. }
        assert (Hy1 : stos s1 j = Some y) by (rewrite S1o; auto).
        eapply (entry_alive s1); eauto using zero_nonneg. }
      rewrite Hmap. reflexivity.
    + intros h' Hne. rewrite C2o by auto. auto.
Qed.

Lemma copy_ok' : forall s src dst ms md, inv s zero zero -> contents s src = Some ms -> contents s dst = Some md -> src <> dst ->
  exists s', copyMap s src dst = Ok s' /\ inv s' zero zero /\ nH s' = nH s /\
    contents s' dst = Some (merge_into md ms) /\ (forall h', h' <> dst -> contents s' h' = contents s h').
Proof.
  intros s src dst ms md H Hs Hd Hne. unfold copyMap. apply Nat.eqb_neq in Hne as Hne'. rewrite Hne'.
  destruct (contents_some _ _ _ Hd) as [i0 [x0 [Hh [Hx ->]]]].
  destruct (detach_ok _ _ _ _ _ H zero_nonneg Hh Hx) as [s1 [i [x [E1 [I1 [N1 [N2 [H1 [S1 [R1 [M1 [Er1 [A1 [C1 D1]]]]]]]]]]]]]].
  rewrite E1. cbn [obind].
  rewrite <- C1 in Hs. destruct (contents_some _ _ _ Hs) as [j [y [Hj [Hy ->]]]].
  rewrite (deref_ok _ _ _ _ Hj Hy). cbn [obind snd].
  assert (Hji : j <> i) by (intro; subst; eapply (excl s1 zero dst i x src); eauto).
  destruct (assignEntries_ok (s_map y) s1 dst i x j y I1 H1 S1 R1 Hji Hy) as [s2 [E2 [I2 [N3 [C2 C3]]]]]; eauto.
  { intros b Hb; auto. }
  exists s2. split; auto. split; auto. split; [congruence|]. split.
  - rewrite C2. f_equal.
    assert (Hdd : den s1 x = den s x0).
    { pose proof (C1 dst) as Q. rewrite (contents_at s1 dst i x), (contents_at s dst i0 x0) in Q by auto. congruence. }
    rewrite Hdd. reflexivity.
  - intros h' Hh'. rewrite C3 by auto. auto.
Qed.

(** ** clear and setError *)
Lemma clear_ok : forall s h m, inv s zero zero -> contents s h = Some m ->
  exists s' i, clear s h = Ok s' /\ inv s' zero zero /\ nH s' = nH s /\ hands s' h = Some i /\
    stos s' i = Some {| s_ref := 1; s_map := []; s_err := false |} /\
    contents s' h = Some fresh /\ (forall h', h' <> h -> contents s' h' = contents s h').
Proof.
  intros s h m H Hm. destruct (contents_some _ _ _ Hm) as [i [x [Hh [Hs ->]]]].
  unfold clear. rewrite (deref_ok _ _ _ _ Hh Hs). cbn [obind]. destruct (Z.eqb_spec (s_ref x) 1) as [E|E].
  - set (x2 := {| s_ref := s_ref x; s_map := []; s_err := false |}).
    assert (Hx2 : msorted (s_map x2)) by constructor.
    pose proof (putS_inv s _ _ i x x2 H Hs eq_refl Hx2) as I2. set (s2 := putS s i x2) in *.
    assert (S2 : stos s2 i = Some x2) by (cbn [s2 putS w_stos stos]; unfold fset; rewrite Nat.eqb_refl; auto).
    destruct (releaseAs_inv (map snd (s_map x)) s2 _ _ I2) as [s3 [E3 [I3 [B1 [B2 [B3 [B4 [B5 B6]]]]]]]].
    { intros a Ha. cbv beta. cbn [x2 s_map map]. pose proof (cntA_nonneg s2 a). unfold zero. unfold cntl at 3. cbn [count_occ]. lia. }
    assert (I3' : inv s3 zero zero).
    { eapply inv_ext; [exact I3| |auto]. intros a. cbv beta. cbn [x2 s_map map]. unfold zero. unfold cntl at 2. cbn [count_occ]. lia. }
    assert (S3 : stos s3 i = Some x2) by (rewrite B1; auto).
    assert (H3 : hands s3 h = Some i) by (rewrite B2; auto).
    exists s3, i. split; [exact E3|]. split; auto. split; [rewrite B4; auto|]. split; auto.
    split; [rewrite S3; unfold x2; rewrite E; auto|]. split.
    + rewrite (contents_at s3 h i x2) by auto. auto.
    + eapply (others_same s s3 zero zero h i x); eauto using zero_nonneg.
      * intros. rewrite B2. reflexivity.
      * intros j Hj _. rewrite B1. cbn [s2 putS w_stos stos]. unfold fset. apply Nat.eqb_neq in Hj. rewrite Hj. auto.
      * intros b Hb. destruct (B6 b) as [Eb|[Eb _]]; [right|left]; rewrite Eb; reflexivity.
  - unfold allocS. assert (Hm0 : @msorted nat []) by constructor.
    pose proof (allocS_inv s zero zero [] false H Hm0) as I2. unfold allocS in I2. cbn [fst] in I2.
    set (s2 := {| nA := nA s; arrs := arrs s; nS := S (nS s); stos := fset (stos s) (nS s) (Some {| s_ref := 1; s_map := []; s_err := false |});
      nH := nH s; hands := hands s |}) in *.
    unfold reseat.
    assert (Hlt : (h < nH s2)%nat) by (cbn [s2 nH]; eapply alive_lt_H; eauto).
    pose proof (hand_inv s2 _ _ h (Some (nS s)) I2 Hlt) as I3.
    assert (Hilt : (i < nS s)%nat) by (eapply alive_lt_S; eauto).
    assert (I3' : inv (w_hands s2 (fset (hands s2) h (Some (nS s)))) zero (fun j => d j i)).
    { eapply inv_ext; [exact I3| |]; intros a; cbv beta.
      - cbn [map]. unfold cntl, zero. cbn [count_occ]. lia.
      - cbn [s2 hands]. rewrite Hh. cbn [wH]. unfold zero. lia. }
    assert (Hs3 : stos (w_hands s2 (fset (hands s2) h (Some (nS s)))) i = Some x).
    { cbn [w_hands stos s2]. unfold fset. destruct (Nat.eqb_spec i (nS s)); [lia|]. auto. }
    destruct (releaseS_inv _ _ _ _ _ I3' Hs3 zero_nonneg) as [s4 [E4 [I4 [B1 [B2 [B3 [B4 [B5 [B6 B7]]]]]]]]].
    destruct (B6 E) as [B6a B6b].
    assert (Hh4 : forall h', hands s4 h' = if Nat.eqb h' h then Some (nS s) else hands s h').
    { intros h'. rewrite B1. cbn [w_hands hands s2]. unfold fset. auto. }
    assert (Hs4 : stos s4 (nS s) = Some {| s_ref := 1; s_map := []; s_err := false |}).
    { rewrite B5 by lia. cbn [w_hands stos s2]. unfold fset. rewrite Nat.eqb_refl. auto. }
    assert (Hh4h : hands s4 h = Some (nS s)) by (rewrite Hh4, Nat.eqb_refl; auto).
    exists s4, (nS s). split; [exact E4|]. split.
    { eapply inv_ext; [exact I4|auto|]. intros a. cbv beta. unfold zero. lia. }
    split; [rewrite B3; auto|]. split; [auto|]. split; [auto|]. split.
    + rewrite (contents_at _ _ _ _ Hh4h Hs4). auto.
    + intros h' Hne. unfold contents. rewrite Hh4. apply Nat.eqb_neq in Hne as Hne'. rewrite Hne'.
      destruct (hands s h') as [j|] eqn:Ej; auto.
      destruct (hand_alive _ _ _ _ H Ej) as [y Ey].
      assert (Hjlt : (j < nS s)%nat) by (eapply alive_lt_S; eauto).
      rewrite Ey. destruct (Nat.eq_dec j i).
      * subst. rewrite B6a. rewrite Hs in Ey. inversion Ey; subst. f_equal. apply den_eq; [reflexivity|reflexivity|]. intros; apply B6b.
      * rewrite B5 by auto. cbn [w_hands stos s2]. unfold fset. destruct (Nat.eqb_spec j (nS s)); [lia|].
        rewrite Ey. f_equal. apply den_eq; [reflexivity|reflexivity|]. intros; apply B6b.
Qed.

Lemma setError_ok : forall s h m msg, inv s zero zero -> contents s h = Some m ->
  exists s', setError s h msg = Ok s' /\ inv s' zero zero /\ nH s' = nH s /\
    contents s' h = Some (error_map msg) /\ (forall h', h' <> h -> contents s' h' = contents s h').
Proof.
  intros s h m msg H Hm. destruct (clear_ok s h m H Hm) as [s1 [i [E1 [I1 [N1 [H1 [S1 [C1 C1o]]]]]]]].
  unfold setError. rewrite E1. cbn [obind]. unfold allocA.
  set (x := push_back (newArr ptData) (VData 1 msg)).
  assert (Hx : arr_ok x) by (apply push_ok; [apply newArr_ok|reflexivity]).
  pose proof (allocA_inv s1 zero zero x I1 Hx) as I2. pose proof (allocA_contents s1 x I1) as C2.
  unfold allocA in I2, C2. cbn [fst] in I2, C2.
  set (s2 := {| nA := S (nA s1); arrs := fset (arrs s1) (nA s1) (Some (1, x)); nS := nS s1; stos := stos s1; nH := nH s1; hands := hands s1 |}) in *.
  assert (H2 : hands s2 h = Some i) by auto. assert (S2 : stos s2 i = Some {| s_ref := 1; s_map := []; s_err := false |}) by auto.
  rewrite (deref_ok _ _ _ _ H2 S2). cbn [obind s_map s_ref mput]. eexists; split; [reflexivity|].
  set (x3 := {| s_ref := 1; s_map := [("_Error"%string, nA s1)]; s_err := true |}).
  assert (Hx3 : msorted (s_map x3)) by (repeat constructor).
  pose proof (putS_inv s2 _ _ i _ x3 I2 S2 eq_refl Hx3) as I3.
  assert (I3' : inv (putS s2 i x3) zero zero).
  { eapply inv_ext; [exact I3| |auto]. intros a. cbv beta. cbn [x3 s_map map snd]. rewrite cntl_cons. unfold zero, cntl. cbn [count_occ]. lia. }
  split; [exact I3'|]. split; [auto|].
  assert (S3 : stos (putS s2 i x3) i = Some x3) by (cbn [putS w_stos stos]; unfold fset; rewrite Nat.eqb_refl; auto).
  split.
  - rewrite (contents_at (putS s2 i x3) h i x3); auto. unfold den. cbn [x3 s_map s_err map fst snd]. unfold error_map.
    f_equal. f_equal. f_equal. f_equal. unfold dval, aval. cbn [putS w_stos arrs s2]. unfold fset. rewrite Nat.eqb_refl. reflexivity.
  - intros h' Hne. rewrite <- C1o by auto. rewrite <- C2. unfold contents. change (hands (putS s2 i x3)) with (hands s2).
    destruct (hands s2 h') as [j|] eqn:Ej; auto.
    assert (j <> i) by (intro; subst; eapply (excl s1 zero h i _ h'); eauto).
    cbn [putS w_stos stos]. unfold fset. apply Nat.eqb_neq in H0 as H0'. rewrite H0'. reflexivity.
Qed.

(** ** handles *)
Lemma create_ok : forall s, inv s zero zero ->
  inv (fst (createMap s)) zero zero /\ snd (createMap s) = nH s /\ nH (fst (createMap s)) = S (nH s) /\
  forall h', contents (fst (createMap s)) h' = if Nat.eqb h' (nH s) then Some fresh else contents s h'.
Proof.
  intros s H. assert (Hm0 : @msorted nat []) by constructor.
  pose proof (allocS_inv s zero zero [] false H Hm0) as I2.
  assert (E : createMap s = newHandle (fst (allocS s [] false)) (nS s)) by reflexivity.
  pose proof (newHandle_inv _ _ _ (nS s) I2) as I3. rewrite E. split; [|split; [reflexivity|split; [reflexivity|]]].
  - eapply inv_ext; [exact I3| |]; intros a; cbv beta; unfold zero; [unfold cntl; cbn [map count_occ]|]; lia.
  - intros h'. unfold newHandle, allocS. cbn [fst]. unfold contents. cbn [hands stos nH]. unfold fset.
    destruct (Nat.eqb_spec h' (nH s)).
    + rewrite Nat.eqb_refl. reflexivity.
    + destruct (hands s h') as [j|] eqn:Ej; auto. destruct (hand_alive _ _ _ _ H Ej) as [y Ey].
      pose proof (alive_lt_S _ _ _ _ _ H Ey). destruct (Nat.eqb_spec j (nS s)); [lia|]. rewrite Ey. f_equal.
Qed.

Lemma clone_ok : forall s h m, inv s zero zero -> contents s h = Some m ->
  exists s', cloneMap s h = Ok (s', nH s) /\ inv s' zero zero /\ nH s' = S (nH s) /\
    forall h', contents s' h' = if Nat.eqb h' (nH s) then Some m else contents s h'.
Proof.
  intros s h m H Hm. destruct (contents_some _ _ _ Hm) as [i [x [Hh [Hs ->]]]].
  unfold cloneMap. rewrite (deref_ok _ _ _ _ Hh Hs). cbn [obind fst].
  destruct (addrefS_inv s _ _ i x H Hs) as [s1 [E1 [I1 D1]]]. rewrite E1. cbn [obind].
  pose proof (newHandle_inv _ _ _ i I1) as I2. exists (fst (newHandle s1 i)).
  split; [rewrite D1; reflexivity|]. split.
  { eapply inv_ext; [exact I2|auto|]. intros a. cbv beta. unfold zero. lia. }
  split; [rewrite D1; reflexivity|]. intros h'. rewrite D1. unfold newHandle. cbn [fst]. unfold contents. cbn [hands stos w_stos nH].
  unfold fset. destruct (Nat.eqb_spec h' (nH s)).
  - rewrite Nat.eqb_refl. reflexivity.
  - destruct (hands s h') as [j|]; auto. destruct (Nat.eqb_spec j i); [subst|auto]. rewrite Hs. reflexivity.
Qed.

Lemma assign_ok : forall s dd h md m, inv s zero zero -> contents s dd = Some md -> contents s h = Some m ->
  exists s', assignMap s dd h = Ok s' /\ inv s' zero zero /\ nH s' = nH s /\
    forall h', contents s' h' = if Nat.eqb h' dd then Some m else contents s h'.
Proof.
  intros s dd h md m H Hd Hm. destruct (contents_some _ _ _ Hm) as [i [x [Hh [Hs ->]]]].
  destruct (contents_some _ _ _ Hd) as [i0 [x0 [Hh0 [Hs0 ->]]]].
  unfold assignMap. rewrite (deref_ok _ _ _ _ Hh Hs), (deref_ok _ _ _ _ Hh0 Hs0). cbn [obind fst].
  destruct (Nat.eqb_spec dd h) as [Edh|Edh].
  { exists s. split; auto. split; auto. split; auto. intros h'. destruct (Nat.eqb_spec h' dd); auto. subst. auto. }
  assert (Hlt : (dd < nH s)%nat) by (eapply alive_lt_H; eauto).
  pose proof (hand_inv s _ _ dd (Some i) H Hlt) as I1.
  set (s1 := w_hands s (fset (hands s) dd (Some i))) in *. rewrite Hh0 in I1. cbn [wH] in I1.
  assert (Hs1 : stos s1 i0 = Some x0) by auto.
  destruct (releaseS_inv _ _ _ _ _ I1 Hs1 zero_nonneg) as [s2 [E2 [I2 [B1 [B2 [B3 [B4 [B5 [B6 B7]]]]]]]]].
  rewrite E2. cbn [obind].
  (* the source storage survives the release *)
  assert (Hx2 : exists x2, stos s2 i = Some x2 /\ s_map x2 = s_map x /\ s_err x2 = s_err x).
  { destruct (Nat.eq_dec i0 i) as [->|Hn]; [|rewrite B5 by auto; eauto].
    rewrite Hs in Hs0. inversion Hs0; subst x0.
    destruct (B6) as [B6a B6b]; [|rewrite B6a; eauto].
    intro Hone. eapply (excl s zero h i x dd); eauto. }
  destruct Hx2 as [x2 [Hx2 [Hx2m Hx2e]]].
  destruct (addrefS_inv s2 _ _ i x2 I2 Hx2) as [s3 [E3 [I3 D3]]]. rewrite E3. exists s3.
  assert (I3' : inv s3 zero zero) by (eapply inv_ext; [exact I3|auto|]; intros a; cbv beta; unfold zero; lia).
  split; auto. split; auto. split; [rewrite D3; cbn [w_stos nH]; rewrite B3; auto|].
  assert (Hh3 : forall h', hands s3 h' = if Nat.eqb h' dd then Some i else hands s h').
  { intros h'. rewrite D3. cbn [w_stos hands]. rewrite B1. reflexivity. }
  assert (Hst : forall h' j y, hands s3 h' = Some j -> stos s j = Some y -> exists y', stos s3 j = Some y' /\ s_map y' = s_map y /\ s_err y' = s_err y).
  { intros h' j y Hj Hy. destruct (hand_alive _ _ _ _ I3' Hj) as [y' Hy']. exists y'. split; auto.
    rewrite D3 in Hy'. cbn [w_stos stos] in Hy'. unfold fset in Hy'. destruct (Nat.eqb_spec j i).
    - subst. inversion Hy'; subst. cbn [s_map s_err]. rewrite Hs in Hy. inversion Hy; subst. auto.
    - destruct (Nat.eq_dec j i0) as [->|Hn0].
      + rewrite Hs0 in Hy. inversion Hy; subst.
        destruct (Z.eq_dec (s_ref y) 1) as [Hone|Hone].
        * exfalso. rewrite Hh3 in Hj. destruct (Nat.eqb_spec h' dd); [congruence|].
          eapply (excl s zero dd i0 y h'); eauto.
        * destruct (B6 Hone) as [B6a _]. rewrite B6a in Hy'. inversion Hy'; subst. auto.
      + rewrite B5 in Hy' by auto. change (stos s1 j) with (stos s j) in Hy'. rewrite Hy in Hy'. inversion Hy'; subst. auto. }
  assert (Hcc : forall h' j y, hands s3 h' = Some j -> stos s j = Some y -> contents s3 h' = Some (den s y)).
  { intros h' j y Hj Hy. destruct (Hst _ _ _ Hj Hy) as [y' [Q1 [Q2 Q3]]]. rewrite (contents_at _ _ _ _ Hj Q1). f_equal.
    apply den_eq; auto. intros a Ha. rewrite <- Q2 in Ha. pose proof (entry_alive _ _ _ _ _ _ I3' zero_nonneg Q1 Ha) as Hal.
    assert (Hav3 : aval s3 a = aval s2 a) by (rewrite D3; reflexivity). rewrite Hav3 in *.
    destruct (B7 a) as [Eb|Eb]; [rewrite Eb; reflexivity|contradiction]. }
  intros h'. destruct (Nat.eqb_spec h' dd).
  - subst. apply (Hcc dd i x); auto. rewrite Hh3, Nat.eqb_refl. auto.
  - assert (Hn' : hands s3 h' = hands s h') by (rewrite Hh3; apply Nat.eqb_neq in n; rewrite n; auto).
    destruct (hands s h') as [j|] eqn:Ej.
    + destruct (hand_alive _ _ _ _ H Ej) as [y Ey]. rewrite (contents_at _ _ _ _ Ej Ey). eapply Hcc; eauto.
    + unfold contents. rewrite Hn', Ej. auto.
Qed.

Lemma free_ok : forall s h m, inv s zero zero -> contents s h = Some m ->
  exists s', freeMap s h = Ok s' /\ inv s' zero zero /\ nH s' = nH s /\
    forall h', contents s' h' = if Nat.eqb h' h then None else contents s h'.
Proof.
  intros s h m H Hm. destruct (contents_some _ _ _ Hm) as [i [x [Hh [Hs ->]]]].
  unfold freeMap. rewrite (deref_ok _ _ _ _ Hh Hs). cbn [obind fst].
  assert (Hlt : (h < nH s)%nat) by (eapply alive_lt_H; eauto).
  pose proof (hand_inv s _ _ h None H Hlt) as I1. set (s1 := w_hands s (fset (hands s) h None)) in *.
  rewrite Hh in I1. cbn [wH] in I1. assert (Hs1 : stos s1 i = Some x) by auto.
  destruct (releaseS_inv _ _ _ _ _ I1 Hs1 zero_nonneg) as [s2 [E2 [I2 [B1 [B2 [B3 [B4 [B5 [B6 B7]]]]]]]]].
  assert (I2' : inv s2 zero zero) by (eapply inv_ext; [exact I2|auto|]; intros a; cbv beta; unfold zero; lia).
  exists s2. split; auto. split; auto. split; [rewrite B3; auto|].
  intros h'. assert (Hh2 : hands s2 h' = if Nat.eqb h' h then None else hands s h') by (rewrite B1; reflexivity).
  destruct (Nat.eqb_spec h' h). { unfold contents. rewrite Hh2. auto. }
  unfold contents. rewrite Hh2. destruct (hands s h') as [j|] eqn:Ej; auto.
  destruct (hand_alive _ _ _ _ H Ej) as [y Ey]. rewrite Ey.
  destruct (hand_alive s2 zero h' j I2' Hh2) as [y' Ey'].
  assert (Hy : s_map y' = s_map y /\ s_err y' = s_err y).
  { destruct (Nat.eq_dec j i) as [->|Hn].
    - rewrite Hs in Ey. inversion Ey; subst. destruct (B6) as [B6a _].
      + intro. eapply (excl s zero h i y h'); eauto.
      + rewrite B6a in Ey'. inversion Ey'; subst; auto.
    - rewrite B5 in Ey' by auto. change (stos s1 j) with (stos s j) in Ey'. rewrite Ey in Ey'. inversion Ey'; auto. }
  rewrite Ey'. destruct Hy as [Y1 Y2]. f_equal. apply den_eq; auto. intros a Ha. rewrite <- Y1 in Ha.
  pose proof (entry_alive _ _ _ _ _ _ I2' zero_nonneg Ey' Ha). destruct (B7 a) as [Eb|Eb]; [rewrite Eb; reflexivity|contradiction].
Qed.
