(** Every map operation acts on the contents of one handle only. *)
From Coq Require Import ZArith List Lia Bool String Ascii Sorting.Sorted.
From Verif Require Import Common SMap MapSpec MapModel MapLemmas.
Import ListNotations.
Open Scope Z_scope.

Definition dval (s : st) (a : nat) : ptype * list val :=
  match aval s a with Some x => (a_type x, elems x) | None => (ptInt, []) end.
Definition den (s : st) (x : sto) : pmap :=
  {| pm := map (fun p => (fst p, dval s (snd p))) (s_map x); pe := s_err x |}.
Definition contents (s : st) (h : nat) : option pmap :=
  match hands s h with
  | Some i => match stos s i with Some x => Some (den s x) | None => None end
  | None => None
  end.

Definition nonneg (e : nat -> Z) : Prop := forall a, 0 <= e a.
Lemma zero_nonneg : nonneg zero. Proof. intro; unfold zero; lia. Qed.

Lemma hand_alive : forall s eA h i, inv s eA zero -> hands s h = Some i -> exists x, stos s i = Some x.
Proof.
  intros s eA h i H Hh. pose proof (alive_lt_H _ _ _ _ _ H Hh) as Hl. pose proof (cntS_ge s h i Hl Hh) as Hc.
  pose proof (iS _ _ _ H i) as Hi. destruct (stos s i); eauto. unfold zero in Hi. lia.
Qed.

Lemma entry_alive : forall s eA eS i x a, inv s eA eS -> nonneg eA -> stos s i = Some x -> In a (map snd (s_map x)) ->
  aval s a <> None.
Proof.
  intros s eA eS i x a H He Hs Ha. pose proof (alive_lt_S _ _ _ _ _ H Hs) as Hl.
  pose proof (cntA_ge s i x a Hl Hs Ha). specialize (He a).
  destruct (inv_A_alive s eA eS a H) as [r [y [E _]]]; [lia|]. unfold aval. rewrite E. discriminate.
Qed.

Lemma excl : forall s eA h i x h', inv s eA zero -> hands s h = Some i -> stos s i = Some x -> s_ref x = 1 -> h' <> h -> hands s h' <> Some i.
Proof.
  intros s eA h i x h' H Hh Hs Hr Hne Hc. pose proof (iS _ _ _ H i) as Hi. rewrite Hs in Hi. destruct Hi as [Hi _].
  pose proof (sumto_ge2 (nH s) h h' (fun h => wH (hands s h) i) (fun _ => wH_nonneg _ _)
    (alive_lt_H _ _ _ _ _ H Hh) (alive_lt_H _ _ _ _ _ H Hc) ltac:(auto)) as Hg.
  cbv beta in Hg. rewrite Hh, Hc in Hg. cbn [wH] in Hg. rewrite d_same in Hg. unfold zero, cntS in Hi. lia.
Qed.

Lemma map_dval_eq : forall s s' (m : smap nat), (forall a, In a (map snd m) -> aval s' a = aval s a) ->
  map (fun p => (fst p, dval s' (snd p))) m = map (fun p => (fst p, dval s (snd p))) m.
Proof.
  intros s s' m H. apply map_ext_in. intros [k a] Hp. cbn [fst snd]. unfold dval. rewrite H; auto.
  apply in_map_iff. exists (k, a). auto.
Qed.
Lemma den_eq : forall s s' x x', s_map x' = s_map x -> s_err x' = s_err x ->
  (forall a, In a (map snd (s_map x)) -> aval s' a = aval s a) -> den s' x' = den s x.
Proof. intros s s' x x' E1 E2 H. unfold den. rewrite E1, E2. f_equal. apply map_dval_eq. auto. Qed.

(** Handles other than [h] do not see a change confined to [h]'s own storage. *)
Lemma others_same : forall s s' eA eA' h i x, inv s eA zero -> inv s' eA' zero -> nonneg eA -> nonneg eA' ->
  hands s h = Some i -> stos s i = Some x -> s_ref x = 1 ->
  (forall h', h' <> h -> hands s' h' = hands s h') -> (forall j, j <> i -> (exists h', hands s h' = Some j) -> stos s' j = stos s j) -> keeps s s' ->
  forall h', h' <> h -> contents s' h' = contents s h'.
Proof.
  intros s s' eA eA' h i x I I' He He' Hh Hs Hr Hha Hst Hk h' Hne. unfold contents. rewrite Hha by auto.
  destruct (hands s h') as [j|] eqn:Ej; auto.
  assert (j <> i) by (intro; subst; eapply (excl s eA h i x h'); eauto).
  rewrite Hst; eauto. destruct (stos s j) as [y|] eqn:Ey; auto. f_equal. apply den_eq; auto.
  intros a Ha. pose proof (entry_alive _ _ _ _ _ _ I He Ey Ha) as A1.
  assert (Ey' : stos s' j = Some y) by (rewrite Hst; eauto).
  pose proof (entry_alive _ _ _ _ _ _ I' He' Ey' Ha) as A2. destruct (Hk a A1); congruence.
Qed.

Lemma deref_ok : forall s h i x, hands s h = Some i -> stos s i = Some x -> deref s h = Ok (i, x).
Proof. intros s h i x E1 E2. unfold deref. rewrite E1, E2. auto. Qed.

Lemma contents_some : forall s h m, contents s h = Some m -> exists i x, hands s h = Some i /\ stos s i = Some x /\ m = den s x.
Proof.
  intros s h m H. unfold contents in H. destruct (hands s h) as [i|] eqn:E; [|discriminate].
  destruct (stos s i) as [x|] eqn:E2; [|discriminate]. inversion H; subst. eauto.
Qed.

(** ** detach *)
Lemma detach_ok : forall s eA h i0 x0, inv s eA zero -> nonneg eA -> hands s h = Some i0 -> stos s i0 = Some x0 ->
  exists s' i x, detach s h = Ok s' /\ inv s' eA zero /\ nH s' = nH s /\ nA s' = nA s /\
    hands s' h = Some i /\ stos s' i = Some x /\ s_ref x = 1 /\ s_map x = s_map x0 /\ s_err x = s_err x0 /\
    (forall a, aval s' a = aval s a) /\ (forall h', contents s' h' = contents s h') /\
    (forall h', hands s' h' = None <-> hands s h' = None).
Proof.
  intros s eA h i0 x0 H He Hh Hs. unfold detach. rewrite (deref_ok _ _ _ _ Hh Hs). cbn [obind].
  destruct (Z.eqb_spec (s_ref x0) 1) as [E|E].
  { exists s, i0, x0. do 4 (split; [auto|]). do 8 (split; [auto|]). intros; tauto. }
  pose proof (iS _ _ _ H i0) as Hi0. rewrite Hs in Hi0. destruct Hi0 as [Hr0 [Hp0 Hm0]].
  destruct (addrefAs_inv (map snd (s_map x0)) s eA zero H) as [s1 [E1 [I1 [A1 [A2 [A3 [A4 [A5 A6]]]]]]]].
  { intros a Ha. pose proof (cntA_ge s i0 x0 a (alive_lt_S _ _ _ _ _ H Hs) Hs Ha). specialize (He a). lia. }
  rewrite E1. cbn [obind]. unfold allocS.
  pose proof (allocS_inv s1 _ _ (s_map x0) (s_err x0) I1 Hm0) as I2. unfold allocS in I2. cbn [fst] in I2.
  set (s2 := {| nA := nA s1; arrs := arrs s1; nS := S (nS s1); stos := fset (stos s1) (nS s1) (Some {| s_ref := 1; s_map := s_map x0; s_err := s_err x0 |});
      nH := nH s1; hands := hands s1 |}) in *.
  unfold reseat.
  assert (Hlt : (h < nH s2)%nat) by (cbn [s2 nH]; rewrite A4; eapply alive_lt_H; eauto).
  pose proof (hand_inv s2 _ _ h (Some (nS s1)) I2 Hlt) as I3.
  assert (Hi0lt : (i0 < nS s1)%nat) by (rewrite A3; eapply alive_lt_S; eauto).
  assert (I3' : inv (w_hands s2 (fset (hands s2) h (Some (nS s1)))) eA (fun i => d i i0)).
  { eapply inv_ext; [exact I3| |]; intros a; cbv beta.
    - lia.
    - cbn [s2 hands]. rewrite A2, Hh. cbn [wH]. unfold zero. lia. }
  assert (Hs3 : stos (w_hands s2 (fset (hands s2) h (Some (nS s1)))) i0 = Some x0).
  { cbn [w_hands stos s2]. unfold fset. destruct (Nat.eqb_spec i0 (nS s1)); [lia|]. rewrite A1. auto. }
  destruct (releaseS_inv _ _ _ _ _ I3' Hs3 He) as [s4 [E4 [I4 [B1 [B2 [B3 [B4 [B5 [B6 B7]]]]]]]]].
  destruct (B6 E) as [B6a B6b].
  exists s4, (nS s1), {| s_ref := 1; s_map := s_map x0; s_err := s_err x0 |}.
  assert (Hh4 : forall h', hands s4 h' = if Nat.eqb h' h then Some (nS s1) else hands s h').
  { intros h'. rewrite B1. cbn [w_hands hands s2]. unfold fset. rewrite A2. auto. }
  assert (Hs4 : stos s4 (nS s1) = Some {| s_ref := 1; s_map := s_map x0; s_err := s_err x0 |}).
  { rewrite B5 by lia. cbn [w_hands stos s2]. unfold fset. rewrite Nat.eqb_refl. auto. }
  assert (Hav : forall a, aval s4 a = aval s a).
  { intros a. rewrite B6b. rewrite <- A6. reflexivity. }
  split; [exact E4|]. split.
  { eapply inv_ext; [exact I4|auto|]. intros a. cbv beta. unfold zero. lia. }
  split; [rewrite B3; exact A4|]. split; [rewrite B4; exact A5|].
  split; [rewrite Hh4, Nat.eqb_refl; auto|]. split; [exact Hs4|].
  do 3 (split; [reflexivity|]). split; [exact Hav|]. split.
  - intros h'. unfold contents. rewrite Hh4. destruct (Nat.eqb_spec h' h).
    + subst. rewrite Hs4, Hh, Hs. f_equal. apply den_eq; auto.
    + destruct (hands s h') as [j|] eqn:Ej; auto.
      destruct (hand_alive _ _ _ _ H Ej) as [y Ey].
      assert (Hjlt : (j < nS s1)%nat) by (rewrite A3; eapply alive_lt_S; eauto).
      rewrite Ey. destruct (Nat.eq_dec j i0).
      * subst. rewrite B6a. rewrite Hs in Ey. inversion Ey; subst. f_equal. apply den_eq; auto.
      * rewrite B5 by auto. cbn [w_hands stos s2]. unfold fset. destruct (Nat.eqb_spec j (nS s1)); [lia|].
        rewrite A1, Ey. f_equal. apply den_eq; auto.
  - intros h'. rewrite Hh4. destruct (Nat.eqb_spec h' h); [subst; rewrite Hh; split; discriminate|tauto].
Qed.

Lemma mput_agree : forall (f f' : nat -> ptype * list val) k v (m : smap nat), msorted m ->
  (forall p, In p m -> fst p <> k -> f' (snd p) = f (snd p)) ->
  mput k v (map (fun p => (fst p, f' (snd p))) m) = mput k v (map (fun p => (fst p, f (snd p))) m).
Proof.
  induction m as [|[k' a] t IH]; intros Hs H; cbn [map mput fst snd]; auto. inversion Hs; subst.
  assert (Ht : forall p, In p t -> k = k' \/ String.compare k k' = Lt -> fst p <> k).
  { intros p Hp Hk. rewrite Forall_forall in H3. apply H3 in Hp. unfold klt in Hp. cbn [fst] in Hp.
    intros E. rewrite E in Hp. destruct Hk as [->|Hk]; [rewrite scmp_refl in Hp; discriminate|].
    rewrite String.compare_antisym, Hk in Hp. discriminate. }
  destruct (String.compare k k') eqn:E.
  - f_equal. apply String.compare_eq_iff in E. apply map_ext_in. intros p Hp. f_equal. apply H; [right; auto|]. auto.
  - f_equal. f_equal.
    + f_equal. apply (H (k', a)); [left; auto|]. cbn. intros ->. rewrite scmp_refl in E. discriminate.
    + apply map_ext_in. intros p Hp. f_equal. apply H; [right; auto|]. auto.
  - f_equal.
    + f_equal. apply (H (k', a)); [left; auto|]. cbn. intros ->. rewrite scmp_refl in E. discriminate.
    + apply IH; auto. intros; apply H; auto. right; auto.
Qed.

Lemma in_mput_other : forall A k (v : A) m p, In p m -> fst p <> k -> In p (mput k v m).
Proof.
  induction m as [|[k' v'] t IH]; intros p Hp Hn; [destruct Hp|]. cbn [mput].
  destruct (String.compare k k') eqn:E.
  - destruct Hp as [<-|Hp]; [|right; auto]. apply String.compare_eq_iff in E. subst. contradiction Hn; auto.
  - right. auto.
  - destruct Hp as [<-|Hp]; [left; auto|right; auto].
Qed.
Lemma in_mput_self : forall A k (v : A) m, In (k, v) (mput k v m).
Proof.
  induction m as [|[k' v'] t IH]; cbn [mput]; [left; auto|]. destruct (String.compare k k'); [left|left|right]; auto.
Qed.

(** ** insert of a freshly allocated or locally owned array *)
Lemma insert_ok : forall s eA h k a m, inv s (fun b => eA b + d b a) zero -> nonneg eA -> contents s h = Some m ->
  aval s a <> None ->
  exists s', insert s h k a = Ok s' /\ inv s' eA zero /\ nH s' = nH s /\
    contents s' h = Some (set_pm m (mput k (dval s a) (pm m))) /\
    (forall h', h' <> h -> contents s' h' = contents s h') /\ aval s' a = aval s a.
Proof.
  intros s eA h k a m H He Hm Ha. destruct (contents_some _ _ _ Hm) as [i0 [x0 [Hh [Hs ->]]]].
  assert (He1 : nonneg (fun b => eA b + d b a)) by (intros b; specialize (He b); pose proof (d_nonneg b a); lia).
  destruct (detach_ok _ _ _ _ _ H He1 Hh Hs) as [s1 [i [x [E1 [I1 [N1 [N2 [H1 [S1 [R1 [M1 [Er1 [A1 [C1 D1]]]]]]]]]]]]]].
  unfold insert. rewrite E1. cbn [obind]. rewrite (deref_ok _ _ _ _ H1 S1). cbn [obind].
  pose proof (iS _ _ _ I1 i) as Hsrt. rewrite S1 in Hsrt. destruct Hsrt as [_ [_ Hsrt]].
  set (x2 := with_map x (mput k a (s_map x))).
  pose proof (putS_inv s1 _ _ i x x2 I1 S1 eq_refl (mput_sorted _ k a _ Hsrt)) as I2.
  set (s2 := putS s1 i x2) in *.
  assert (I2' : inv s2 (fun b => eA b + dopt b (mget k (s_map x))) zero).
  { eapply inv_ext; [exact I2| |auto]. intros b. cbv beta. cbn [x2 with_map s_map]. rewrite cntl_mput by auto. lia. }
  assert (S2 : stos s2 i = Some x2) by (cbn [s2 putS w_stos stos]; unfold fset; rewrite Nat.eqb_refl; auto).
  assert (S2o : forall j, j <> i -> stos s2 j = stos s1 j).
  { intros j Hj. cbn [s2 putS w_stos stos]. unfold fset. apply Nat.eqb_neq in Hj. rewrite Hj. auto. }
  assert (Hfin : forall s', inv s' eA zero -> stos s' = stos s2 -> hands s' = hands s2 -> nH s' = nH s2 ->
     (forall b, aval s' b = aval s2 b \/ aval s' b = None) ->
     inv s' eA zero /\ nH s' = nH s /\ contents s' h = Some (set_pm (den s x0) (mput k (dval s a) (pm (den s x0)))) /\
     (forall h', h' <> h -> contents s' h' = contents s h') /\ aval s' a = aval s a).
  { intros s' I' E'1 E'2 E'3 Hav. split; auto. split; [rewrite E'3; auto|].
    assert (Hs' : stos s' i = Some x2) by (rewrite E'1; auto).
    assert (Hlive : forall b, In b (map snd (s_map x2)) -> aval s' b = aval s b).
    { intros b Hb. pose proof (entry_alive _ _ _ _ _ _ I' He Hs' Hb). destruct (Hav b) as [Eb|Eb]; [|contradiction].
      rewrite Eb. change (aval s2 b) with (aval s1 b). apply A1. }
    assert (Haa : aval s' a = aval s a).
    { apply Hlive. apply in_map_iff. exists (k, a). split; auto. cbn [x2 with_map s_map]. apply in_mput_self. }
    split; [|split; auto].
    - unfold contents. rewrite E'2. cbn [s2 putS w_stos hands]. rewrite H1, Hs'. f_equal. unfold den, set_pm.
      cbn [x2 with_map s_map s_err pm pe]. rewrite Er1. f_equal. rewrite mput_map.
      replace (dval s' a) with (dval s a) by (unfold dval; rewrite Haa; auto).
      rewrite M1. apply mput_agree; [rewrite <- M1; auto|]. intros p Hp Hne. unfold dval. rewrite Hlive; auto.
      apply in_map_iff. exists p. split; auto. cbn [x2 with_map s_map]. rewrite M1. apply in_mput_other; auto.
    - intros h' Hne. rewrite <- C1. eapply (others_same s1 s' _ eA h i x); eauto.
      + intros. rewrite E'2. reflexivity.
      + intros j Hj _. rewrite E'1. auto.
      + intros b Hb. destruct (Hav b) as [Eb|Eb]; [right|left]; rewrite Eb; reflexivity. }
  fold s2. destruct (mget k (s_map x)) as [old|] eqn:Eg.
  - destruct (releaseA_inv s2 _ _ old I2') as [s3 [E3 [I3 [B1 [B2 [B3 [B4 [B5 B6]]]]]]]].
    { cbn [dopt]. rewrite d_same. pose proof (cntA_nonneg s2 old). specialize (He old). lia. }
    exists s3. split; [exact E3|]. apply Hfin; auto.
    + eapply inv_ext; [exact I3| |auto]. intros b. cbn [dopt]. lia.
    + intros b. destruct (B6 b) as [Eb|[Eb _]]; auto.
  - exists s2. split; auto. apply Hfin; auto. eapply inv_ext; [exact I2'| |auto]. intros b. cbn [dopt]. lia.
Qed.

Lemma insertNew_ok : forall s h k x m, inv s zero zero -> contents s h = Some m -> arr_ok x ->
  exists s', insertNew s h k x = Ok (s', true) /\ inv s' zero zero /\ nH s' = nH s /\
    contents s' h = Some (set_pm m (mput k (a_type x, elems x) (pm m))) /\
    (forall h', h' <> h -> contents s' h' = contents s h').
Proof.
  intros s h k x m H Hm Hx. unfold insertNew, allocA.
  pose proof (allocA_inv s zero zero x H Hx) as I1. unfold allocA in I1. cbn [fst] in I1.
  set (s1 := {| nA := S (nA s); arrs := fset (arrs s) (nA s) (Some (1, x)); nS := nS s; stos := stos s; nH := nH s; hands := hands s |}) in *.
  assert (Hav : forall b, b <> nA s -> aval s1 b = aval s b).
  { intros b Hb. unfold aval. cbn [s1 arrs]. unfold fset. apply Nat.eqb_neq in Hb. rewrite Hb. auto. }
  assert (Hc : forall h', contents s1 h' = contents s h').
  { intros h'. unfold contents. cbn [s1 hands stos]. destruct (hands s h') as [i|]; auto.
    destruct (stos s i) as [y|] eqn:Ey; auto. f_equal. apply den_eq; auto. intros a Ha. apply Hav. intro; subst.
    pose proof (entry_alive _ _ _ _ _ _ H zero_nonneg Ey Ha) as Hal. unfold aval in Hal.
    rewrite (iAn _ _ _ H (nA s)) in Hal by auto. apply Hal. auto. }
  assert (Ha : aval s1 (nA s) = Some x).
  { unfold aval. cbn [s1 arrs]. unfold fset. rewrite Nat.eqb_refl. auto. }
  destruct (insert_ok s1 zero h k (nA s) m I1 zero_nonneg) as [s2 [E2 [I2 [N2 [C2 [C3 _]]]]]].
  { rewrite Hc. auto. } { rewrite Ha. discriminate. }
  rewrite E2. cbn [obind]. exists s2. split; auto. split; auto. split; [rewrite N2; auto|]. split.
  - rewrite C2. unfold dval. rewrite Ha. auto.
  - intros h' Hne. rewrite C3 by auto. apply Hc.
Qed.

(** ** erase *)
Lemma in_mdel_other : forall A k (m : smap A) p, In p m -> fst p <> k -> In p (mdel k m).
Proof.
  induction m as [|[k' v'] t IH]; intros p Hp Hn; [destruct Hp|]. cbn [mdel].
  destruct (String.eqb_spec k k').
  - subst. destruct Hp as [<-|Hp]; auto. contradiction Hn; auto.
  - destruct Hp as [<-|Hp]; [left; auto|right; auto].
Qed.
Lemma mdel_agree : forall (f f' : nat -> ptype * list val) k (m : smap nat),
  (forall p, In p (mdel k m) -> f' (snd p) = f (snd p)) ->
  mdel k (map (fun p => (fst p, f' (snd p))) m) = mdel k (map (fun p => (fst p, f (snd p))) m).
Proof.
  induction m as [|[k' a] t IH]; intros H; cbn [map mdel fst snd] in *; auto.
  destruct (String.eqb k k').
  - apply map_ext_in. intros p Hp. f_equal. auto.
  - rewrite IH by (intros; apply H; right; auto). f_equal. f_equal. apply (H (k', a)). left; auto.
Qed.

Lemma erase_ok : forall s h k m, inv s zero zero -> contents s h = Some m ->
  exists s', erase s h k = Ok (s', match mget k (pm m) with Some _ => true | None => false end) /\
    inv s' zero zero /\ nH s' = nH s /\
    contents s' h = Some (match mget k (pm m) with Some _ => set_pm m (mdel k (pm m)) | None => m end) /\
    (forall h', h' <> h -> contents s' h' = contents s h').
Proof.
  intros s h k m H Hm. pose proof Hm as Hm0. destruct (contents_some _ _ _ Hm) as [i0 [x0 [Hh [Hs ->]]]].
  unfold erase. rewrite (deref_ok _ _ _ _ Hh Hs). cbn [obind snd den pm]. rewrite mget_map.
  destruct (mget k (s_map x0)) as [a|] eqn:Eg; cbn [option_map].
  2:{ exists s. auto. }
  destruct (detach_ok _ _ _ _ _ H zero_nonneg Hh Hs) as [s1 [i [x [E1 [I1 [N1 [N2 [H1 [S1 [R1 [M1 [Er1 [A1 [C1 D1]]]]]]]]]]]]]].
  rewrite E1. cbn [obind]. rewrite (deref_ok _ _ _ _ H1 S1). cbn [obind]. rewrite M1, Eg.
  pose proof (iS _ _ _ I1 i) as Hsrt. rewrite S1 in Hsrt. destruct Hsrt as [_ [_ Hsrt]].
  set (x2 := with_map x (mdel k (s_map x0))).
  assert (Hx2 : msorted (s_map x2)) by (cbn [x2 with_map s_map]; apply mdel_sorted; rewrite <- M1; auto).
  pose proof (putS_inv s1 _ _ i x x2 I1 S1 eq_refl Hx2) as I2.
  set (s2 := putS s1 i x2) in *.
  assert (I2' : inv s2 (fun b => d b a) zero).
  { eapply inv_ext; [exact I2| |auto]. intros b. cbv beta. cbn [x2 with_map s_map]. rewrite cntl_mdel, M1, Eg. cbn [dopt]. unfold zero. lia. }
  assert (S2 : stos s2 i = Some x2) by (cbn [s2 putS w_stos stos]; unfold fset; rewrite Nat.eqb_refl; auto).
  destruct (releaseA_inv s2 _ _ a I2') as [s3 [E3 [I3 [B1 [B2 [B3 [B4 [B5 B6]]]]]]]].
  { rewrite d_same. pose proof (cntA_nonneg s2 a). lia. }
  assert (I3' : inv s3 zero zero) by (eapply inv_ext; [exact I3| |auto]; intros b; cbv beta; unfold zero; lia).
  rewrite E3. cbn [obind]. exists s3. split; auto. split; auto. split; [rewrite B4; auto|].
  assert (S3 : stos s3 i = Some x2) by (rewrite B1; auto).
  assert (Hlive : forall b, In b (map snd (s_map x2)) -> aval s3 b = aval s b).
  { intros b Hb. pose proof (entry_alive _ _ _ _ _ _ I3' zero_nonneg S3 Hb). destruct (B6 b) as [Eb|[Eb _]]; [|contradiction].
    rewrite Eb. change (aval s2 b) with (aval s1 b). apply A1. }
  split.
  - unfold contents. rewrite B2. cbn [s2 putS w_stos hands]. rewrite H1, S3. f_equal. unfold den, set_pm.
    cbn [x2 with_map s_map s_err pm pe]. rewrite Er1. f_equal. rewrite mdel_map. apply mdel_agree.
    intros p Hp. unfold dval. rewrite Hlive; auto. apply in_map_iff. exists p. auto.
  - intros h' Hne. rewrite <- C1. eapply (others_same s1 s3 zero zero h i x); eauto using zero_nonneg.
    + intros. rewrite B2. reflexivity.
    + intros j Hj _. rewrite B1. cbn [s2 putS w_stos stos]. unfold fset. apply Nat.eqb_neq in Hj. rewrite Hj. auto.
    + intros b Hb. destruct (B6 b) as [Eb|[Eb _]]; [right|left]; rewrite Eb; reflexivity.
Qed.
