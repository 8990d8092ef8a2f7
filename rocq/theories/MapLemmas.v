(** Reference counting invariant of the map heaps. *)
From Coq Require Import ZArith List Lia Bool String Ascii Sorting.Sorted.
From Verif Require Import Common SMap MapSpec MapModel.
Import ListNotations.
Open Scope Z_scope.

(** ** Sums *)
Fixpoint sumto (n : nat) (g : nat -> Z) : Z := match n with O => 0 | S m => sumto m g + g m end.

Lemma sumto_ext : forall n g g', (forall x, (x < n)%nat -> g x = g' x) -> sumto n g = sumto n g'.
Proof. induction n; simpl; intros; auto. rewrite (IHn g g'), H; auto. Qed.
Lemma sumto_upd : forall n i g g', (i < n)%nat -> (forall x, x <> i -> g' x = g x) ->
  sumto n g' = sumto n g - g i + g' i.
Proof.
  induction n; intros i g g' Hi H; [lia|]. simpl. destruct (Nat.eq_dec i n).
  - subst. rewrite (sumto_ext n g' g); [lia|]. intros. apply H. lia.
  - rewrite (IHn i g g'); [|lia|auto]. rewrite (H n); auto. lia.
Qed.
Lemma sumto_nonneg : forall n g, (forall x, 0 <= g x) -> 0 <= sumto n g.
Proof. induction n; simpl; intros; [lia|]. specialize (IHn g H). specialize (H n). lia. Qed.
Lemma sumto_ge : forall n i g, (forall x, 0 <= g x) -> (i < n)%nat -> g i <= sumto n g.
Proof.
  induction n; intros i g H Hi; [lia|]. simpl. pose proof (sumto_nonneg n g H). pose proof (H n).
  destruct (Nat.eq_dec i n); [subst; lia|]. specialize (IHn i g H ltac:(lia)). lia.
Qed.
Lemma sumto_ge2 : forall n i j g, (forall x, 0 <= g x) -> (i < n)%nat -> (j < n)%nat -> i <> j -> g i + g j <= sumto n g.
Proof.
  induction n; intros i j g H Hi Hj Hne; [lia|]. simpl. pose proof (H n).
  destruct (Nat.eq_dec i n).
  - subst. pose proof (sumto_ge n j g H ltac:(lia)). lia.
  - destruct (Nat.eq_dec j n).
    + subst. pose proof (sumto_ge n i g H ltac:(lia)). lia.
    + specialize (IHn i j g H ltac:(lia) ltac:(lia) Hne). lia.
Qed.
Lemma sumto_zero : forall n g, (forall x, (x < n)%nat -> g x = 0) -> sumto n g = 0.
Proof. induction n; simpl; intros; auto. rewrite IHn, H; auto; lia. Qed.

(** ** Counting pointers *)
Definition d (a b : nat) : Z := if Nat.eqb a b then 1 else 0.
Definition cntl (a : nat) (l : list nat) : Z := Z.of_nat (count_occ Nat.eq_dec l a).
Definition wA (o : option sto) (a : nat) : Z := match o with Some x => cntl a (map snd (s_map x)) | None => 0 end.
Definition cntA (s : st) (a : nat) : Z := sumto (nS s) (fun i => wA (stos s i) a).
Definition wH (o : option nat) (i : nat) : Z := match o with Some j => d i j | None => 0 end.
Definition cntS (s : st) (i : nat) : Z := sumto (nH s) (fun h => wH (hands s h) i).

Lemma d_same : forall a, d a a = 1. Proof. intros. unfold d. rewrite Nat.eqb_refl. auto. Qed.
Lemma d_diff : forall a b, a <> b -> d a b = 0.
Proof. intros. unfold d. apply Nat.eqb_neq in H. rewrite H. auto. Qed.
Lemma d_nonneg : forall a b, 0 <= d a b. Proof. intros. unfold d. destruct (Nat.eqb a b); lia. Qed.
Lemma cntl_nonneg : forall a l, 0 <= cntl a l. Proof. intros. unfold cntl. lia. Qed.
Lemma cntl_cons : forall a b l, cntl a (b :: l) = d a b + cntl a l.
Proof.
  intros. unfold cntl, d. simpl. destruct (Nat.eq_dec b a).
  - subst. rewrite Nat.eqb_refl. lia.
  - destruct (Nat.eqb_spec a b); [congruence|]. lia.
Qed.
Lemma cntl_in : forall a l, In a l -> 1 <= cntl a l.
Proof. intros. unfold cntl. apply (count_occ_In Nat.eq_dec) in H. lia. Qed.
Lemma wA_nonneg : forall o a, 0 <= wA o a.
Proof. intros. unfold wA. destruct o; [apply cntl_nonneg|lia]. Qed.
Lemma wH_nonneg : forall o a, 0 <= wH o a.
Proof. intros. unfold wH. destruct o; [apply d_nonneg|lia]. Qed.

Definition dopt (a : nat) (o : option nat) : Z := match o with Some b => d a b | None => 0 end.
Lemma cntl_mput : forall k v (m : smap nat) a, msorted m ->
  cntl a (map snd (mput k v m)) = cntl a (map snd m) + d a v - dopt a (mget k m).
Proof.
  induction m as [|[k' v'] t IH]; intros a Hs; cbn [mput mget map snd].
  - rewrite cntl_cons. unfold cntl. simpl. lia.
  - inversion Hs; subst. destruct (String.eqb_spec k k').
    + subst. rewrite scmp_refl. cbn [map snd]. rewrite !cntl_cons. simpl. lia.
    + destruct (String.compare k k') eqn:E.
      * apply String.compare_eq_iff in E. contradiction.
      * assert (En : mget k t = None).
        { apply mget_below. intros p Hp. rewrite Forall_forall in H2. apply H2 in Hp. eapply scmp_trans; eauto. }
        rewrite En. cbn [map snd]. rewrite !cntl_cons. simpl. lia.
      * cbn [map snd]. rewrite !cntl_cons, IH by auto. lia.
Qed.
Lemma cntl_mdel : forall k (m : smap nat) a,
  cntl a (map snd (mdel k m)) = cntl a (map snd m) - dopt a (mget k m).
Proof.
  induction m as [|[k' v'] t IH]; intros a; cbn [mdel mget map snd].
  - cbn [dopt]. lia.
  - destruct (String.eqb k k'); cbn [map snd]; rewrite !cntl_cons; cbn [dopt]; [lia|]. rewrite IH. lia.
Qed.

(** ** Arrays *)
Definition elems (x : arr) : list val :=
  if a_size x =? 0 then []
  else if a_size x =? 1 then match a_single x with Some v => [v] | None => [] end
  else a_vec x.
Record arr_ok (x : arr) : Prop := {
  ao_size : a_size x = zlength (elems x);
  ao_vec : a_size x <= 1 -> a_vec x = [];
  ao_ty : Forall (fun v => vtype v = a_type x) (elems x) }.

Lemma newArr_ok : forall t, arr_ok (newArr t).
Proof. intros. constructor; simpl; auto. constructor. Qed.
Lemma newArr_elems : forall t, elems (newArr t) = [].
Proof. reflexivity. Qed.

Lemma ok_cases : forall x, arr_ok x ->
  (a_size x = 0 /\ a_vec x = [] /\ elems x = []) \/
  (a_size x = 1 /\ a_vec x = [] /\ exists v, a_single x = Some v /\ elems x = [v]) \/
  (1 < a_size x /\ elems x = a_vec x).
Proof.
  intros x [H1 H2 H3]. unfold elems in *.
  destruct (Z.eqb_spec (a_size x) 0).
  - left. rewrite H2 by lia. auto.
  - destruct (Z.eqb_spec (a_size x) 1).
    + right; left. rewrite H2 by lia. destruct (a_single x) eqn:E; [eauto|]. cbn in H1. lia.
    + right; right. pose proof (zlength_nonneg _ (a_vec x)). split; [lia|auto].
Qed.

Lemma push_ok : forall x v, arr_ok x -> vtype v = a_type x -> arr_ok (push_back x v).
Proof.
  intros x v Hx Hv. pose proof (ao_ty x Hx) as Ht. pose proof (ao_size x Hx) as Hsz.
  destruct (ok_cases x Hx) as [[E [Ev El]]|[[E [Ev [w [Es El]]]]|[E El]]]; unfold push_back.
  - rewrite E. cbn. rewrite Ev. constructor; cbn; auto.
  - rewrite E. cbn [Z.eqb Z.add Pos.add]. rewrite Ev, Es. rewrite El in Ht. inversion Ht; subst.
    constructor; cbn; auto. lia.
  - destruct (Z.eqb_spec (a_size x) 0); [lia|]. destruct (Z.eqb_spec (a_size x) 1); [lia|].
    constructor; unfold elems; cbn [a_size a_vec a_type].
    + destruct (Z.eqb_spec (a_size x + 1) 0); [lia|]. destruct (Z.eqb_spec (a_size x + 1) 1); [lia|].
      rewrite zlength_app. cbn. rewrite Hsz, El. auto.
    + lia.
    + destruct (Z.eqb_spec (a_size x + 1) 0); [lia|]. destruct (Z.eqb_spec (a_size x + 1) 1); [lia|].
      rewrite El in Ht. apply Forall_app. auto.
Qed.
Lemma push_elems : forall x v, arr_ok x -> elems (push_back x v) = elems x ++ [v].
Proof.
  intros x v Hx.
  destruct (ok_cases x Hx) as [[E [Ev El]]|[[E [Ev [w [Es El]]]]|[E El]]]; unfold push_back; rewrite El.
  - rewrite E. reflexivity.
  - rewrite E. cbn. rewrite Ev, Es. reflexivity.
  - destruct (Z.eqb_spec (a_size x) 0); [lia|]. destruct (Z.eqb_spec (a_size x) 1); [lia|].
    unfold elems; cbn [a_size a_vec].
    destruct (Z.eqb_spec (a_size x + 1) 0); [lia|]. destruct (Z.eqb_spec (a_size x + 1) 1); [lia|]. auto.
Qed.
Lemma push_type : forall x v, a_type (push_back x v) = a_type x.
Proof. intros. unfold push_back. destruct (a_size x =? 0), (a_size x =? 1); auto. Qed.

Lemma copy_elems : forall x, arr_ok x -> elems (copyArr x) = elems x.
Proof.
  intros x Hx. destruct (ok_cases x Hx) as [[E [Ev El]]|[[E [Ev [w [Es El]]]]|[E El]]]; rewrite El; unfold elems, copyArr; cbn [a_size a_vec a_single].
  - rewrite E. auto.
  - rewrite E, Es. auto.
  - destruct (Z.eqb_spec (a_size x) 0); [lia|]. destruct (Z.eqb_spec (a_size x) 1); [lia|].
    destruct (Z.ltb_spec 1 (a_size x)); [auto|lia].
Qed.
Lemma copy_ok : forall x, arr_ok x -> arr_ok (copyArr x).
Proof.
  intros x Hx. constructor.
  - rewrite copy_elems by auto. cbn. apply Hx.
  - cbn. intros. destruct (Z.ltb_spec 1 (a_size x)); [lia|auto].
  - rewrite copy_elems by auto. cbn. apply Hx.
Qed.
Lemma arrOf_elems : forall t l, elems (arrOf t l) = l.
Proof.
  intros t [|v [|w l]]; try reflexivity. unfold elems, arrOf. cbn [a_size a_vec].
  rewrite !zlength_cons. pose proof (zlength_nonneg _ l).
  destruct (Z.eqb_spec (1 + (1 + zlength l)) 0); [lia|]. destruct (Z.eqb_spec (1 + (1 + zlength l)) 1); [lia|]. auto.
Qed.
Lemma arrOf_type : forall t l, a_type (arrOf t l) = t.
Proof. intros t [|v [|w l]]; reflexivity. Qed.
Lemma arrOf_ok : forall t l, Forall (fun v => vtype v = t) l -> arr_ok (arrOf t l).
Proof.
  intros t l H. constructor.
  - rewrite arrOf_elems. destruct l as [|v [|w l]]; reflexivity.
  - destruct l as [|v [|w l]]; auto. cbn [arrOf a_size]. rewrite !zlength_cons. pose proof (zlength_nonneg _ l). lia.
  - rewrite arrOf_elems, arrOf_type. auto.
Qed.
Lemma at_elems : forall x i, arr_ok x -> 0 <= i < a_size x -> exists v, at_ x i = Ok v /\ nthz (elems x) i = Some v.
Proof.
  intros x i Hx Hi. pose proof (ao_size x Hx) as Hsz.
  destruct (ok_cases x Hx) as [[E [Ev El]]|[[E [Ev [w [Es El]]]]|[E El]]]; unfold at_.
  - lia.
  - rewrite E, Es, El. assert (i = 0) by lia. subst. exists w. auto.
  - destruct (Z.eqb_spec (a_size x) 1); [lia|]. rewrite El in *.
    destruct (nthz (a_vec x) i) eqn:En; [eauto|]. apply nthz_None_iff in En. lia.
Qed.
Lemma data_elems : forall x, arr_ok x -> dataPtr x = Ok (elems x).
Proof.
  intros x Hx. destruct (ok_cases x Hx) as [[E [Ev El]]|[[E [Ev [w [Es El]]]]|[E El]]]; unfold dataPtr.
  - rewrite E, El, Ev. auto.
  - rewrite E, Es, El. auto.
  - destruct (Z.eqb_spec (a_size x) 1); [lia|]. rewrite El. auto.
Qed.

(** ** The invariant.  [eA], [eS]: pointers held by local variables. *)
Record inv (s : st) (eA eS : nat -> Z) : Prop := {
  iA : forall a, match arrs s a with
                 | Some (r, x) => r = cntA s a + eA a /\ 0 < r /\ arr_ok x
                 | None => cntA s a + eA a = 0 end;
  iS : forall i, match stos s i with
                 | Some x => s_ref x = cntS s i + eS i /\ 0 < s_ref x /\ msorted (s_map x)
                 | None => cntS s i + eS i = 0 end;
  iAn : forall a, (nA s <= a)%nat -> arrs s a = None;
  iSn : forall i, (nS s <= i)%nat -> stos s i = None;
  iHn : forall h, (nH s <= h)%nat -> hands s h = None }.

Definition zero : nat -> Z := fun _ => 0.

Lemma inv_ext : forall s eA eS eA' eS', inv s eA eS -> (forall a, eA a = eA' a) -> (forall a, eS a = eS' a) -> inv s eA' eS'.
Proof.
  intros s eA eS eA' eS' [H1 H2 H3 H4 H5] E1 E2. constructor; auto.
  - intros a. specialize (H1 a). rewrite <- E1. auto.
  - intros a. specialize (H2 a). rewrite <- E2. auto.
Qed.

Lemma init_inv : inv init zero zero.
Proof. constructor; simpl; auto. Qed.

Lemma inv_A_alive : forall s eA eS a, inv s eA eS -> cntA s a + eA a <> 0 -> exists r x, arrs s a = Some (r, x) /\ arr_ok x /\ r = cntA s a + eA a /\ 0 < r.
Proof.
  intros s eA eS a H Hn. pose proof (iA _ _ _ H a) as Ha. destruct (arrs s a) as [[r x]|]; [|contradiction].
  exists r, x. tauto.
Qed.

Lemma cntA_nonneg : forall s a, 0 <= cntA s a.
Proof. intros. apply sumto_nonneg. intros. apply wA_nonneg. Qed.
Lemma cntS_nonneg : forall s a, 0 <= cntS s a.
Proof. intros. apply sumto_nonneg. intros. apply wH_nonneg. Qed.
Lemma cntA_ge : forall s i x a, (i < nS s)%nat -> stos s i = Some x -> In a (map snd (s_map x)) -> 1 <= cntA s a.
Proof.
  intros s i x a Hi Hs Ha. pose proof (sumto_ge (nS s) i (fun i => wA (stos s i) a) (fun _ => wA_nonneg _ _) Hi) as H.
  cbv beta in H. rewrite Hs in H. unfold wA at 1 in H. apply cntl_in in Ha. unfold cntA. lia.
Qed.
Lemma cntS_ge : forall s h i, (h < nH s)%nat -> hands s h = Some i -> 1 <= cntS s i.
Proof.
  intros s h i Hh Hs. pose proof (sumto_ge (nH s) h (fun h => wH (hands s h) i) (fun _ => wH_nonneg _ _) Hh) as H.
  cbv beta in H. rewrite Hs in H. unfold wH at 1 in H. rewrite d_same in H. exact H.
Qed.

Lemma alive_lt_S : forall s eA eS i x, inv s eA eS -> stos s i = Some x -> (i < nS s)%nat.
Proof. intros. destruct (le_lt_dec (nS s) i); auto. rewrite (iSn _ _ _ H i l) in H0. discriminate. Qed.
Lemma alive_lt_H : forall s eA eS h i, inv s eA eS -> hands s h = Some i -> (h < nH s)%nat.
Proof. intros. destruct (le_lt_dec (nH s) h); auto. rewrite (iHn _ _ _ H h l) in H0. discriminate. Qed.

(** Content of arrays: unchanged unless deleted. *)
Definition aval (s : st) (a : nat) : option arr := option_map snd (arrs s a).
Definition keeps (s s' : st) : Prop := forall a, aval s a <> None -> aval s' a = None \/ aval s' a = aval s a.
Lemma keeps_refl : forall s, keeps s s. Proof. intros s a H. auto. Qed.
Lemma keeps_trans : forall s1 s2 s3, keeps s1 s2 -> keeps s2 s3 ->
  (forall a, aval s1 a <> None -> aval s2 a = None -> aval s3 a = None) -> keeps s1 s3.
Proof.
  intros s1 s2 s3 H1 H2 H3 a Ha. destruct (H1 a Ha) as [E|E].
  - left. auto.
  - destruct (aval s2 a) eqn:E2; [|left; auto]. destruct (H2 a) as [E3|E3]; try congruence; [left; auto|]. right. congruence.
Qed.

(** ** Primitive steps *)
Lemma addrefA_inv : forall s eA eS a, inv s eA eS -> cntA s a + eA a <> 0 ->
  exists s', addrefA s a = Ok s' /\ inv s' (fun b => eA b + d b a) eS /\
    stos s' = stos s /\ hands s' = hands s /\ nS s' = nS s /\ nH s' = nH s /\ nA s' = nA s /\
    (forall b, aval s' b = aval s b).
Proof.
  intros s eA eS a H Hn. destruct (inv_A_alive _ _ _ _ H Hn) as [r [x [E [Hok [Hr Hp]]]]].
  unfold addrefA. rewrite E. eexists; split; [reflexivity|].
  split; [|repeat split; auto].
  - destruct H as [H1 H2 H3 H4 H5]. constructor; cbn [w_arrs nA arrs nS stos nH hands]; auto.
    + intros b. unfold fset. change (cntA (w_arrs s _) b) with (cntA s b).
      destruct (Nat.eqb_spec b a).
      * subst. rewrite d_same. split; [lia|]. split; [lia|auto].
      * rewrite d_diff by auto. specialize (H1 b). destruct (arrs s b) as [[r' x']|]; [|lia].
        destruct H1 as [A [B C]]. split; [lia|auto].
    + intros b Hb. unfold fset. destruct (Nat.eqb_spec b a); [|auto]. subst. rewrite H3 in E by auto. discriminate.
  - intros b. unfold aval. cbn [w_arrs arrs]. unfold fset. destruct (Nat.eqb_spec b a); auto. subst. rewrite E. auto.
Qed.

Lemma releaseA_inv : forall s eA eS a, inv s eA eS -> cntA s a + eA a <> 0 ->
  exists s', releaseA s a = Ok s' /\ inv s' (fun b => eA b - d b a) eS /\
    stos s' = stos s /\ hands s' = hands s /\ nS s' = nS s /\ nH s' = nH s /\ nA s' = nA s /\
    (forall b, aval s' b = aval s b \/ (aval s' b = None /\ b = a)).
Proof.
  intros s eA eS a H Hn. destruct (inv_A_alive _ _ _ _ H Hn) as [r [x [E [Hok [Hr Hp]]]]].
  unfold releaseA. rewrite E. eexists; split; [reflexivity|].
  split; [|repeat split; auto].
  - destruct H as [H1 H2 H3 H4 H5]. constructor; cbn [w_arrs nA arrs nS stos nH hands]; auto.
    + intros b. unfold fset. change (cntA (w_arrs s _) b) with (cntA s b).
      destruct (Nat.eqb_spec b a).
      * subst b. rewrite d_same. destruct (Z.eqb_spec (r - 1) 0); [lia|]. split; [lia|]. split; [lia|auto].
      * rewrite d_diff by auto. specialize (H1 b). destruct (arrs s b) as [[r' x']|]; [|lia].
        destruct H1 as [A [B C]]. split; [lia|auto].
    + intros b Hb. unfold fset. destruct (Nat.eqb_spec b a); [|auto]. subst. rewrite H3 in E by auto. discriminate.
  - intros b. unfold aval. cbn [w_arrs arrs]. unfold fset. destruct (Nat.eqb_spec b a); auto. subst. rewrite E.
    destruct (_ - 1 =? 0); auto.
Qed.

Lemma addrefAs_inv : forall l s eA eS, inv s eA eS -> (forall a, In a l -> 0 < cntA s a + eA a) ->
  exists s', addrefAs s l = Ok s' /\ inv s' (fun b => eA b + cntl b l) eS /\
    stos s' = stos s /\ hands s' = hands s /\ nS s' = nS s /\ nH s' = nH s /\ nA s' = nA s /\
    (forall b, aval s' b = aval s b).
Proof.
  induction l as [|a t IH]; intros s eA eS H Hl; cbn [addrefAs].
  - exists s. repeat split; auto; try apply H. intros b. pose proof (iA _ _ _ H b) as Hb. unfold cntl; simpl.
    destruct (arrs s b) as [[r x]|]; [|lia]. destruct Hb as [A B]. split; [lia|auto].
  - destruct (addrefA_inv s eA eS a H) as [s1 [E1 [I1 [A1 [A2 [A3 [A4 [A5 A6]]]]]]]].
    { specialize (Hl a (or_introl eq_refl)). lia. }
    assert (Hc : forall b, cntA s1 b = cntA s b) by (intros; unfold cntA; rewrite A1, A3; auto).
    rewrite E1. cbn [obind].
    destruct (IH s1 _ _ I1) as [s2 [E2 [I2 [B1 [B2 [B3 [B4 [B5 B6]]]]]]]].
    { intros b Hb. rewrite Hc. pose proof (d_nonneg b a). specialize (Hl b (or_intror Hb)). lia. }
    rewrite E2. exists s2. split; [reflexivity|]. split.
    + eapply inv_ext; [exact I2| |auto]. intros b. cbv beta. rewrite cntl_cons. lia.
    + rewrite B1, B2, B3, B4, B5. repeat split; auto. intros b. rewrite B6. auto.
Qed.

Lemma releaseAs_inv : forall l s eA eS, inv s eA eS -> (forall a, In a l -> cntl a l <= cntA s a + eA a) ->
  exists s', releaseAs s l = Ok s' /\ inv s' (fun b => eA b - cntl b l) eS /\
    stos s' = stos s /\ hands s' = hands s /\ nS s' = nS s /\ nH s' = nH s /\ nA s' = nA s /\
    (forall b, aval s' b = aval s b \/ (aval s' b = None /\ In b l)).
Proof.
  induction l as [|a t IH]; intros s eA eS H Hl; cbn [releaseAs].
  - exists s. repeat split; auto; try apply H. intros b. pose proof (iA _ _ _ H b) as Hb. unfold cntl; simpl.
    destruct (arrs s b) as [[r x]|]; [|lia]. destruct Hb as [A B]. split; [lia|auto].
  - destruct (releaseA_inv s eA eS a H) as [s1 [E1 [I1 [A1 [A2 [A3 [A4 [A5 A6]]]]]]]].
    { specialize (Hl a (or_introl eq_refl)). rewrite cntl_cons, d_same in Hl. pose proof (cntl_nonneg a t). lia. }
    assert (Hc : forall b, cntA s1 b = cntA s b) by (intros; unfold cntA; rewrite A1, A3; auto).
    rewrite E1. cbn [obind].
    destruct (IH s1 _ _ I1) as [s2 [E2 [I2 [B1 [B2 [B3 [B4 [B5 B6]]]]]]]].
    { intros b Hb. rewrite Hc. specialize (Hl b (or_intror Hb)). rewrite cntl_cons in Hl. lia. }
    rewrite E2. exists s2. split; [reflexivity|]. split.
    + eapply inv_ext; [exact I2| |auto]. intros b. cbv beta. rewrite cntl_cons. lia.
    + rewrite B1, B2, B3, B4, B5. repeat split; auto. intros b.
      destruct (B6 b) as [E|[E Hb]]; [|right; split; auto; right; auto]. destruct (A6 b) as [E'|[E' ->]].
      * left. congruence.
      * right. split; [congruence|left; auto].
Qed.

Lemma allocA_inv : forall s eA eS x, inv s eA eS -> arr_ok x ->
  inv (fst (allocA s x)) (fun b => eA b + d b (nA s)) eS.
Proof.
  intros s eA eS x [H1 H2 H3 H4 H5] Hx. unfold allocA. cbn [fst].
  constructor; cbn [nA arrs nS stos nH hands]; auto.
  - intros b. change (cntA _ b) with (cntA s b). unfold fset.
    destruct (Nat.eqb_spec b (nA s)).
    + subst. rewrite d_same. specialize (H1 (nA s)). rewrite H3 in H1 by auto. split; [lia|]. split; [lia|auto].
    + rewrite d_diff by auto. specialize (H1 b). destruct (arrs s b) as [[r' x']|]; [|lia].
      destruct H1 as [A [B C]]. split; [lia|auto].
  - intros b Hb. unfold fset. destruct (Nat.eqb_spec b (nA s)); [lia|]. apply H3. lia.
Qed.

(** Overwriting the map of a storage moves pointers between it and locals. *)
Lemma putS_inv : forall s eA eS i x x', inv s eA eS -> stos s i = Some x -> s_ref x' = s_ref x -> msorted (s_map x') ->
  inv (putS s i x') (fun a => eA a + cntl a (map snd (s_map x)) - cntl a (map snd (s_map x'))) eS.
Proof.
  intros s eA eS i x x' H Hs Hr Hm. pose proof (alive_lt_S _ _ _ _ _ H Hs) as Hi.
  destruct H as [H1 H2 H3 H4 H5]. unfold putS. constructor; cbn [w_stos nA arrs nS stos nH hands]; auto.
  - intros a.
    assert (Hc : cntA (w_stos s (fset (stos s) i (Some x'))) a = cntA s a - cntl a (map snd (s_map x)) + cntl a (map snd (s_map x'))).
    { unfold cntA. cbn [w_stos nS stos]. rewrite (sumto_upd (nS s) i (fun i => wA (stos s i) a)); auto.
      - unfold fset. rewrite Nat.eqb_refl, Hs. unfold wA. auto.
      - intros y Hy. unfold fset. apply Nat.eqb_neq in Hy. rewrite Hy. auto. }
    rewrite Hc. specialize (H1 a). destruct (arrs s a) as [[r y]|]; [|lia].
    destruct H1 as [A [B C]]. split; [lia|auto].
  - intros j. change (cntS (w_stos s _) j) with (cntS s j). unfold fset. specialize (H2 j).
    destruct (Nat.eqb_spec j i); [|auto]. subst. rewrite Hs in H2. rewrite Hr. tauto.
  - intros j Hj. unfold fset. destruct (Nat.eqb_spec j i); [lia|auto].
Qed.

Lemma allocS_inv : forall s eA eS m e, inv s eA eS -> msorted m ->
  inv (fst (allocS s m e)) (fun a => eA a - cntl a (map snd m)) (fun i => eS i + d i (nS s)).
Proof.
  intros s eA eS m e [H1 H2 H3 H4 H5] Hm. unfold allocS. cbn [fst].
  constructor; cbn [nA arrs nS stos nH hands]; auto.
  - intros a.
    match goal with |- context [cntA ?x a] => assert (Hc : cntA x a = cntA s a + cntl a (map snd m)) end.
    { unfold cntA. cbn [nS stos sumto]. f_equal.
      - apply sumto_ext. intros y Hy. unfold fset. destruct (Nat.eqb_spec y (nS s)); [lia|auto].
      - unfold fset. rewrite Nat.eqb_refl. auto. }
    rewrite Hc.
    specialize (H1 a). destruct (arrs s a) as [[r y]|]; [|lia].
    destruct H1 as [A [B C]]. split; [lia|auto].
  - intros j. unfold cntS. cbn [nH hands]. fold (cntS s j). unfold fset. destruct (Nat.eqb_spec j (nS s)).
    + subst. cbn [s_ref s_map]. rewrite d_same. specialize (H2 (nS s)). rewrite H4 in H2 by auto. split; [lia|]. split; [lia|auto].
    + rewrite d_diff by auto. specialize (H2 j). destruct (stos s j); [|lia]. destruct H2 as [A [B C]]. split; [lia|auto].
  - intros j Hj. unfold fset. destruct (Nat.eqb_spec j (nS s)); [lia|]. apply H4. lia.
Qed.

(** Changing a handle. *)
Lemma hand_inv : forall s eA eS h v, inv s eA eS -> (h < nH s)%nat ->
  inv (w_hands s (fset (hands s) h v)) eA (fun i => eS i + wH (hands s h) i - wH v i).
Proof.
  intros s eA eS h v [H1 H2 H3 H4 H5] Hh. constructor; cbn [w_hands nA arrs nS stos nH hands]; auto.
  - intros j.
    assert (Hc : cntS (w_hands s (fset (hands s) h v)) j = cntS s j - wH (hands s h) j + wH v j).
    { unfold cntS. cbn [w_hands nH hands]. rewrite (sumto_upd (nH s) h (fun h => wH (hands s h) j)); auto.
      - unfold fset at 1. rewrite Nat.eqb_refl. auto.
      - intros y Hy. unfold fset. apply Nat.eqb_neq in Hy. rewrite Hy. auto. }
    rewrite Hc. specialize (H2 j). destruct (stos s j); [|lia]. destruct H2 as [A [B C]]. split; [lia|auto].
  - intros y Hy. unfold fset. destruct (Nat.eqb_spec y h); [lia|auto].
Qed.

Lemma newHandle_inv : forall s eA eS i, inv s eA eS ->
  inv (fst (newHandle s i)) eA (fun j => eS j - d j i).
Proof.
  intros s eA eS i [H1 H2 H3 H4 H5]. unfold newHandle. cbn [fst]. constructor; cbn [nA arrs nS stos nH hands]; auto.
  - intros j.
    match goal with |- context [cntS ?x j] => assert (Hc : cntS x j = cntS s j + d j i) end.
    { unfold cntS. cbn [nH hands sumto]. f_equal.
      - apply sumto_ext. intros y Hy. unfold fset. destruct (Nat.eqb_spec y (nH s)); [lia|auto].
      - unfold fset. rewrite Nat.eqb_refl. auto. }
    rewrite Hc.
    specialize (H2 j). destruct (stos s j); [|lia]. destruct H2 as [A [B C]]. split; [lia|auto].
  - intros y Hy. unfold fset. destruct (Nat.eqb_spec y (nH s)); [lia|]. apply H5. lia.
Qed.

Lemma addrefS_inv : forall s eA eS i x, inv s eA eS -> stos s i = Some x ->
  exists s', addrefS s i = Ok s' /\ inv s' eA (fun j => eS j + d j i) /\
    s' = w_stos s (fset (stos s) i (Some {| s_ref := s_ref x + 1; s_map := s_map x; s_err := s_err x |})).
Proof.
  intros s eA eS i x H Hs. unfold addrefS. rewrite Hs. eexists; split; [reflexivity|]. split; auto.
  pose proof (alive_lt_S _ _ _ _ _ H Hs) as Hi.
  destruct H as [H1 H2 H3 H4 H5]. constructor; cbn [w_stos nA arrs nS stos nH hands]; auto.
  - intros a.
    assert (Hc : cntA (w_stos s (fset (stos s) i (Some {| s_ref := s_ref x + 1; s_map := s_map x; s_err := s_err x |}))) a = cntA s a).
    { unfold cntA. cbn [w_stos nS stos]. apply sumto_ext. intros y Hy. unfold fset.
      destruct (Nat.eqb_spec y i); auto. subst. rewrite Hs. auto. }
    rewrite Hc. apply H1.
  - intros j. change (cntS (w_stos s _) j) with (cntS s j). unfold fset. specialize (H2 j).
    destruct (Nat.eqb_spec j i).
    + subst. rewrite Hs in H2. rewrite d_same. cbn [s_ref s_map]. destruct H2 as [A [B C]]. split; [lia|]. split; [lia|auto].
    + rewrite d_diff by auto. destruct (stos s j); [|lia]. destruct H2 as [A [B C]]. split; [lia|auto].
  - intros j Hj. unfold fset. destruct (Nat.eqb_spec j i); [lia|auto].
Qed.

(** Releasing a storage: either it survives with one reference less, or it and
    its references disappear. *)
Lemma releaseS_inv : forall s eA eS i x, inv s eA eS -> stos s i = Some x -> (forall a, 0 <= eA a) ->
  exists s', releaseS s i = Ok s' /\ inv s' eA (fun j => eS j - d j i) /\
    hands s' = hands s /\ nS s' = nS s /\ nH s' = nH s /\ nA s' = nA s /\
    (forall j, j <> i -> stos s' j = stos s j) /\
    (s_ref x <> 1 -> stos s' i = Some {| s_ref := s_ref x - 1; s_map := s_map x; s_err := s_err x |} /\ (forall b, aval s' b = aval s b)) /\
    (forall b, aval s' b = aval s b \/ aval s' b = None).
Proof.
  intros s eA eS i x H Hs He. unfold releaseS. rewrite Hs.
  pose proof (alive_lt_S _ _ _ _ _ H Hs) as Hi. pose proof H as H0. destruct H as [H1 H2 H3 H4 H5].
  destruct (Z.eqb_spec (s_ref x - 1) 0) as [E|E].
  - assert (Hc : forall a, cntA (w_stos s (fset (stos s) i None)) a = cntA s a - cntl a (map snd (s_map x))).
    { intros a. unfold cntA. cbn [w_stos nS stos]. rewrite (sumto_upd (nS s) i (fun i => wA (stos s i) a)); auto.
      - unfold fset. rewrite Nat.eqb_refl, Hs. unfold wA. lia.
      - intros y Hy. unfold fset. apply Nat.eqb_neq in Hy. rewrite Hy. auto. }
    assert (I1 : inv (w_stos s (fset (stos s) i None)) (fun a => eA a + cntl a (map snd (s_map x))) (fun j => eS j - d j i)).
    { constructor; cbn [w_stos nA arrs nS stos nH hands]; auto.
      - intros a. rewrite Hc. specialize (H1 a). destruct (arrs s a) as [[r y]|]; [|lia].
        destruct H1 as [A [B C]]. split; [lia|auto].
      - intros j. change (cntS (w_stos s _) j) with (cntS s j). unfold fset. specialize (H2 j).
        destruct (Nat.eqb_spec j i).
        + subst. rewrite Hs in H2. rewrite d_same. lia.
        + rewrite d_diff by auto. destruct (stos s j); [|lia]. destruct H2 as [A [B C]]. split; [lia|auto].
      - intros j Hj. unfold fset. destruct (Nat.eqb_spec j i); [auto|auto]. }
    destruct (releaseAs_inv (map snd (s_map x)) _ _ _ I1) as [s2 [E2 [I2 [A1 [A2 [A3 [A4 [A5 A6]]]]]]]].
    { intros a Ha. rewrite Hc. pose proof (cntA_nonneg (w_stos s (fset (stos s) i None)) a) as Hnn. rewrite Hc in Hnn.
      specialize (He a). lia. }
    rewrite E2. exists s2. split; [reflexivity|]. split.
    + eapply inv_ext; [exact I2| |auto]. intros a. cbv beta. lia.
    + rewrite A1, A2, A3, A4, A5. do 4 (split; [reflexivity|]). split; [|split].
      * intros j Hj. cbn [w_stos stos]. unfold fset. apply Nat.eqb_neq in Hj. rewrite Hj. auto.
      * intros Hr. lia.
      * intros b. destruct (A6 b) as [E'|[E' _]]; [left; rewrite E'; reflexivity|right; auto].
  - eexists; split; [reflexivity|]. cbn [w_stos nA arrs nS stos nH hands]. split.
    + constructor; cbn [w_stos nA arrs nS stos nH hands]; auto.
      * intros a.
        assert (Hc : cntA (w_stos s (fset (stos s) i (Some {| s_ref := s_ref x - 1; s_map := s_map x; s_err := s_err x |}))) a = cntA s a).
        { unfold cntA. cbn [w_stos nS stos]. apply sumto_ext. intros y Hy. unfold fset.
          destruct (Nat.eqb_spec y i); auto. subst. rewrite Hs. auto. }
        rewrite Hc. apply H1.
      * intros j. change (cntS (w_stos s _) j) with (cntS s j). unfold fset. specialize (H2 j).
        destruct (Nat.eqb_spec j i).
        -- subst. rewrite Hs in H2. rewrite d_same. cbn [s_ref s_map]. destruct H2 as [A [B C]]. split; [lia|]. split; [lia|auto].
        -- rewrite d_diff by auto. destruct (stos s j); [|lia]. destruct H2 as [A [B C]]. split; [lia|auto].
      * intros j Hj. unfold fset. destruct (Nat.eqb_spec j i); [lia|auto].
    + do 4 (split; [reflexivity|]). split; [|split].
      * intros j Hj. unfold fset. apply Nat.eqb_neq in Hj. rewrite Hj. auto.
      * intros _. unfold fset. rewrite Nat.eqb_refl. auto.
      * intros b. left. reflexivity.
Qed.
