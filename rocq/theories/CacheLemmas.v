(** Refinement of the pointer level cache to the abstract LRU list. *)
From Coq Require Import ZArith List Lia Bool.
From Verif Require Import Common CacheSpec Cache.
Import ListNotations.
Open Scope Z_scope.

Definition hd_or {A} (l : list A) (d : option A) : option A := match l with [] => d | x :: _ => Some x end.
Fixpoint last_or {A} (l : list A) (d : option A) : option A :=
  match l with [] => d | x :: t => last_or t (Some x) end.

Lemma last_or_app : forall A (a b : list A) d, last_or (a ++ b) d = last_or b (last_or a d).
Proof. induction a; simpl; auto. Qed.
Lemma last_or_snoc : forall A (a : list A) x d, last_or (a ++ [x]) d = Some x.
Proof. intros. rewrite last_or_app. reflexivity. Qed.
Lemma hd_or_app : forall A (a b : list A) d, hd_or (a ++ b) d = hd_or a (hd_or b d).
Proof. destruct a; auto. Qed.

Lemma list_snoc : forall A (l : list A), l = [] \/ exists l' x, l = l' ++ [x].
Proof. intros A l; induction l using rev_ind; eauto. Qed.

Lemma oeqb_eq : forall a b, oeqb a b = true <-> a = b.
Proof. destruct a, b; simpl; try rewrite Z.eqb_eq; split; congruence. Qed.
Lemma oeqb_neq : forall a b, oeqb a b = false <-> a <> b.
Proof. intros. rewrite <- oeqb_eq. destruct (oeqb a b); split; congruence. Qed.


Section Refine.
Variable F : Type.
Variable fsz : F -> Z.

Notation node := (node F). Notation heap := (heap F). Notation cache := (cache F). Notation lru := (lru F).
Notation total := (total F fsz).

Fixpoint seg (h : heap) (p : option Z) (ks : list Z) (nx : option Z) : Prop :=
  match ks with
  | [] => True
  | k :: t => (exists fr, h k = Some {| n_frame := fr; n_prev := p; n_next := hd_or t nx |}) /\
              seg h (Some k) t nx
  end.

Lemma seg_app : forall h a b p nx,
  seg h p (a ++ b) nx <-> seg h p a (hd_or b nx) /\ seg h (last_or a p) b nx.
Proof.
  induction a as [|x a IH]; simpl; intros; [tauto|].
  rewrite hd_or_app, IH. tauto.
Qed.

Lemma seg_ext : forall h h' ks p nx, (forall k, In k ks -> h' k = h k) -> seg h p ks nx -> seg h' p ks nx.
Proof.
  induction ks as [|x t IH]; simpl; intros p nx He; auto. intros [[fr H1] H2]. split.
  - exists fr. rewrite He; auto.
  - apply IH; auto.
Qed.

(** Only the frames changed. *)
Lemma seg_links : forall h h' ks p nx,
  (forall k n, In k ks -> h k = Some n -> exists fr, h' k = Some {| n_frame := fr; n_prev := n_prev F n; n_next := n_next F n |}) ->
  seg h p ks nx -> seg h' p ks nx.
Proof.
  induction ks as [|x t IH]; simpl; intros p nx He; auto. intros [[fr H1] H2]. split.
  - destruct (He x _ (or_introl eq_refl) H1) as [fr' H']. exists fr'. exact H'.
  - apply IH; auto.
Qed.

Lemma hset_same : forall h k n, hset F h k n k = Some n.
Proof. intros; unfold hset. rewrite Z.eqb_refl. auto. Qed.
Lemma hset_other : forall h k n x, x <> k -> hset F h k n x = h x.
Proof. intros; unfold hset. destruct (Z.eqb_spec x k); congruence. Qed.
Lemma hdel_same : forall h k, hdel F h k k = None.
Proof. intros; unfold hdel. rewrite Z.eqb_refl. auto. Qed.
Lemma hdel_other : forall h k x, x <> k -> hdel F h k x = h x.
Proof. intros; unfold hdel. destruct (Z.eqb_spec x k); congruence. Qed.

Definition frames (h : heap) (k : Z) : option (option F) := option_map (n_frame F) (h k).

(** Redirecting the neighbours of the node [k]. *)
Lemma unlink_heap : forall h a k b n,
  NoDup (a ++ k :: b) -> seg h None (a ++ k :: b) None -> h k = Some n ->
  n_prev F n = last_or a None /\ n_next F n = hd_or b None /\
  exists h1 h2,
    (match n_prev F n with Some p => upd F h p (with_next F (n_next F n)) | None => Ok h end) = Ok h1 /\
    (match n_next F n with Some x => upd F h1 x (with_prev F (n_prev F n)) | None => Ok h1 end) = Ok h2 /\
    seg h2 None (a ++ b) None /\ h2 k = Some n /\
    (forall x, frames h2 x = frames h x).
Proof.
  intros h a k b n Hnd Hs Hk.
  apply seg_app in Hs. destruct Hs as [Ha [[fr E] Hb]]. simpl hd_or in *.
  rewrite Hk in E. inversion E; subst n; clear E. cbn [n_prev n_next]. split; auto. split; auto.
  assert (Hka : ~ In k a) by (apply NoDup_remove_2 in Hnd; rewrite in_app_iff in Hnd; tauto).
  assert (Hkb : ~ In k b) by (apply NoDup_remove_2 in Hnd; rewrite in_app_iff in Hnd; tauto).
  apply NoDup_remove_1 in Hnd.
  (* step 1 *)
  assert (S1 : exists h1, (match last_or a None with Some p => upd F h p (with_next F (hd_or b None)) | None => Ok h end) = Ok h1 /\
     seg h1 None a (hd_or b None) /\ (forall x, ~ In x a -> h1 x = h x) /\ (forall x, frames h1 x = frames h x)).
  { destruct (list_snoc _ a) as [->|[a' [p ->]]].
    - exists h. simpl. auto.
    - rewrite last_or_snoc. apply seg_app in Ha. destruct Ha as [Ha1 [[fp Hp] _]]. cbn [hd_or] in *.
      unfold upd. rewrite Hp. eexists; split; [reflexivity|]. cbn [with_next n_frame n_prev n_next].
      assert (Hpa : ~ In p a').
      { rewrite <- app_assoc in Hnd. apply NoDup_remove_2 in Hnd. rewrite in_app_iff in Hnd. tauto. }
      split; [|split].
      + apply seg_app. split.
        * cbn [hd_or]. eapply seg_ext; [|exact Ha1]. intros x Hx. apply hset_other. congruence.
        * cbn [seg hd_or]. split; auto. exists fp. apply hset_same.
      + intros x Hx. apply hset_other. intro; subst. apply Hx. apply in_app_iff. simpl; auto.
      + intros x. unfold frames. destruct (Z.eq_dec x p).
        * subst. rewrite hset_same, Hp. auto.
        * rewrite hset_other; auto. }
  destruct S1 as [h1 [E1 [Sa [O1 F1]]]]. rewrite E1.
  assert (Hab : forall x, In x b -> ~ In x a).
  { clear -Hnd. induction a as [|y a IH]; simpl; [auto|]. inversion Hnd; subst. intros x Hx [->|Hxa].
    - apply H1. apply in_app_iff; auto.
    - eapply IH; eauto. }
  assert (S2 : exists h2, (match hd_or b None with Some x => upd F h1 x (with_prev F (last_or a None)) | None => Ok h1 end) = Ok h2 /\
     seg h2 (last_or a None) b None /\ (forall x, ~ In x b -> h2 x = h1 x) /\ (forall x, frames h2 x = frames h1 x)).
  { destruct b as [|q b'].
    - exists h1. simpl. auto.
    - cbn [hd_or]. cbn [seg] in Hb. destruct Hb as [[fq Hq] Hb'].
      assert (Hq1 : h1 q = h q) by (apply O1; apply Hab; simpl; auto).
      unfold upd. rewrite Hq1, Hq. eexists; split; [reflexivity|]. cbn [with_prev n_frame n_prev n_next].
      assert (Hqb : ~ In q b') by (apply NoDup_remove_2 in Hnd; rewrite in_app_iff in Hnd; tauto).
      split; [|split].
      + cbn [seg]. split. { exists fq. apply hset_same. }
        eapply seg_ext; [|exact Hb']. intros x Hx. rewrite hset_other by congruence.
        apply O1. apply Hab. simpl; auto.
      + intros x Hx. apply hset_other. intro; subst. apply Hx. simpl; auto.
      + intros x. unfold frames. destruct (Z.eq_dec x q).
        * subst. rewrite hset_same, Hq1, Hq. auto.
        * rewrite hset_other; auto. }
  destruct S2 as [h2 [E2 [Sb [O2 F2]]]].
  exists h1, h2. split; auto. split; auto. split; [|split].
  - apply seg_app. split; auto. eapply seg_ext; [|exact Sa]. intros x Hx. apply O2.
    intro Hxb. apply (Hab x); auto.
  - rewrite O2, O1; auto.
  - intros x. rewrite F2, F1. auto.
Qed.

(** ** The relation *)

Definition keys (a : lru) : list Z := map fst (live F a) ++ hist F a.

Definition view (lv : list (Z * F)) (hs : list Z) (k : Z) : option (option F) :=
  match assoc F k lv with
  | Some f => Some (Some f)
  | None => if existsb (Z.eqb k) hs then Some None else None
  end.

Record rel0 (c : cache) (a : lru) : Prop := {
  r_nodup : NoDup (keys a);
  r_seg : seg (hash F c) None (keys a) None;
  r_view : forall k, frames (hash F c) k = view (live F a) (hist F a) k;
  r_first : cfirst F c = hd_or (keys a) None;
  r_last : clast F c = last_or (keys a) None;
  r_weak : cweak F c = hd_or (hist F a) None;
  r_cur : currentSize F c = zlength (live F a);
  r_histn : historySize F c = zlength (hist F a);
  r_bytes : currentBytes F c = total (live F a);
  r_max : maxSize F c = cap F a; r_maxh : maxHistorySize F c = hcap F a;
  r_fixed : fixedSize F c = fixed F a;
  r_hits : hits F c = nhit F a; r_near : nearMiss F c = nnear F a; r_far : farMiss F c = nfar F a;
  r_user : userSize F c = floor F a; r_act : lastActivity F c = seen F a;
  r_nonneg : 0 <= cap F a /\ 0 <= hcap F a /\ 0 <= floor F a;
  r_stats : 0 <= nhit F a /\ 0 <= nnear F a /\ 0 <= nfar F a;
  r_sizes : Forall (fun p => 0 <= fsz (snd p)) (live F a);
  r_mem : total (live F a) < SIZE_MAX }.

Definition bounded (a : lru) : Prop := zlength (live F a) <= cap F a /\ zlength (hist F a) <= hcap F a.
Definition rel (c : cache) (a : lru) : Prop := rel0 c a /\ bounded a.

Lemma assoc_In : forall k l f, assoc F k l = Some f -> In (k, f) l.
Proof.
  intros k l f. unfold assoc. destruct (find _ l) as [[k' f']|] eqn:E; [|discriminate].
  apply find_some in E. destruct E as [E1 E2]. apply Z.eqb_eq in E2. simpl in *.
  intros E; inversion E; subst. auto.
Qed.
Lemma assoc_None : forall k l, assoc F k l = None <-> ~ In k (map fst l).
Proof. clear fsz.
  intros k l. unfold assoc. induction l as [|[k' f'] t IH]; simpl; [tauto|].
  destruct (Z.eqb_spec k' k); simpl.
  - split; [discriminate|]. intros H. exfalso; auto.
  - rewrite IH. tauto.
Qed.
Lemma existsb_eqb : forall k l, existsb (Z.eqb k) l = true <-> In k l.
Proof.
  intros. rewrite existsb_exists. split.
  - intros [x [H1 H2]]. apply Z.eqb_eq in H2. congruence.
  - intros H. exists k. split; auto. apply Z.eqb_refl.
Qed.
Lemma existsb_eqb_f : forall k l, existsb (Z.eqb k) l = false <-> ~ In k l.
Proof. intros. rewrite <- existsb_eqb. destruct (existsb (Z.eqb k) l); split; congruence. Qed.

Lemma view_live : forall lv hs k f, NoDup (map fst lv ++ hs) -> In (k, f) lv -> view lv hs k = Some (Some f).
Proof. clear fsz.
  intros lv hs k f Hn Hi. unfold view.
  assert (Hn' : NoDup (map fst lv)).
  { clear -Hn. induction lv; simpl in *; [constructor|]. inversion Hn; subst. constructor; auto.
    intro; apply H1; apply in_app_iff; auto. }
  assert (E : assoc F k lv = Some f); [|rewrite E; auto].
  unfold assoc. clear Hn. induction lv as [|[k' f'] t IH]; simpl in *; [contradiction|].
  inversion Hn'; subst. destruct (Z.eqb_spec k' k).
  - destruct Hi as [Hi|Hi]; [inversion Hi; auto|]. subst. exfalso. apply H1. apply in_map_iff. exists (k, f); auto.
  - destruct Hi as [Hi|Hi]; [inversion Hi; congruence|]. auto.
Qed.
Lemma view_hist : forall lv hs k, NoDup (map fst lv ++ hs) -> In k hs -> view lv hs k = Some None.
Proof. clear fsz.
  intros lv hs k Hn Hi. unfold view.
  assert (E : assoc F k lv = None).
  { apply assoc_None. intro Hl. clear -Hn Hi Hl. induction lv as [|x t IH]; simpl in *; [contradiction|].
    inversion Hn; subst. destruct Hl as [<-|Hl]; auto. apply H1. apply in_app_iff; auto. }
  rewrite E. assert (E2 : existsb (Z.eqb k) hs = true) by (apply existsb_eqb; auto). rewrite E2. auto.
Qed.
Lemma view_out : forall lv hs k, ~ In k (map fst lv ++ hs) -> view lv hs k = None.
Proof. clear fsz.
  intros lv hs k H. unfold view. rewrite in_app_iff in H.
  assert (E : assoc F k lv = None) by (apply assoc_None; tauto). rewrite E.
  assert (E2 : existsb (Z.eqb k) hs = false) by (apply existsb_eqb_f; tauto). rewrite E2; auto.
Qed.

(** Characterisation used to establish [r_view]. *)
Lemma view_eq : forall (h : heap) lv hs, NoDup (map fst lv ++ hs) ->
  (forall k f, In (k, f) lv -> frames h k = Some (Some f)) ->
  (forall k, In k hs -> frames h k = Some None) ->
  (forall k, ~ In k (map fst lv ++ hs) -> frames h k = None) ->
  forall k, frames h k = view lv hs k.
Proof. clear fsz.
  intros h lv hs Hn H1 H2 H3 k.
  destruct (in_dec Z.eq_dec k (map fst lv ++ hs)) as [Hi|Hi].
  - apply in_app_iff in Hi. destruct Hi as [Hi|Hi].
    + apply in_map_iff in Hi. destruct Hi as [[k' f] [<- Hi]]. simpl. rewrite (H1 _ _ Hi).
      symmetry. apply view_live; auto.
    + rewrite H2 by auto. symmetry; apply view_hist; auto.
  - rewrite H3 by auto. symmetry; apply view_out; auto.
Qed.

Lemma frames_Some : forall (h : heap) k x, frames h k = Some x -> exists n, h k = Some n /\ n_frame F n = x.
Proof. intros h k x. unfold frames. destruct (h k) as [n|]; simpl; [|discriminate]. intros E; inversion E. eauto. Qed.
Lemma frames_None : forall (h : heap) k, frames h k = None -> h k = None.
Proof. intros h k. unfold frames. destruct (h k); [discriminate|auto]. Qed.

Lemma total_app : forall l1 l2, total (l1 ++ l2) = total l1 + total l2.
Proof. induction l1; simpl; intros; auto. rewrite IHl1. lia. Qed.
Lemma total_nonneg : forall l, Forall (fun p => 0 <= fsz (snd p)) l -> 0 <= total l.
Proof. induction 1; simpl; lia. Qed.

(** Splitting the live or history list at a key. *)
Lemma without_split : forall l1 k f l2, NoDup (map fst (l1 ++ (k, f) :: l2)) ->
  without F k (l1 ++ (k, f) :: l2) = l1 ++ l2.
Proof. clear fsz.
  intros l1 k f l2 H. unfold without. rewrite filter_app. simpl. rewrite Z.eqb_refl. simpl.
  rewrite map_app in H. simpl in H.
  assert (A1 : ~ In k (map fst l1)) by (apply NoDup_remove_2 in H; rewrite in_app_iff in H; tauto).
  assert (A2 : ~ In k (map fst l2)) by (apply NoDup_remove_2 in H; rewrite in_app_iff in H; tauto).
  assert (Hf : forall l, ~ In k (map fst l) -> filter (fun p : Z * F => negb (fst p =? k)) l = l).
  { clear. induction l as [|[k' f'] t IH]; simpl; intros H; auto.
    destruct (Z.eqb_spec k' k); [exfalso; auto|]. simpl. f_equal. auto. }
  rewrite !Hf; auto.
Qed.
Lemma without_notin : forall k l, ~ In k (map fst l) -> without F k l = l.
Proof. clear fsz.
  unfold without. induction l as [|[k' f'] t IH]; simpl; intros H; auto.
  destruct (Z.eqb_spec k' k); [exfalso; auto|]. simpl. f_equal. auto.
Qed.
Lemma hwithout_notin : forall k l, ~ In k l -> hwithout k l = l.
Proof.
  unfold hwithout. induction l as [|k' t IH]; simpl; intros H; auto.
  destruct (Z.eqb_spec k' k); [exfalso; auto|]. simpl. f_equal. auto.
Qed.
Lemma hwithout_split : forall l1 k l2, NoDup (l1 ++ k :: l2) -> hwithout k (l1 ++ k :: l2) = l1 ++ l2.
Proof. clear fsz.
  intros l1 k l2 H. unfold hwithout. rewrite filter_app. simpl. rewrite Z.eqb_refl. simpl.
  apply NoDup_remove_2 in H. rewrite in_app_iff in H.
  fold (hwithout k l1). fold (hwithout k l2). rewrite !hwithout_notin; tauto.
Qed.

Lemma NoDup_app_l : forall A (l1 l2 : list A), NoDup (l1 ++ l2) -> NoDup l1.
Proof.
  induction l1; simpl; intros; [constructor|]. inversion H; subst. constructor; eauto.
  intro; apply H2; apply in_app_iff; auto.
Qed.
Lemma NoDup_app_r : forall A (l1 l2 : list A), NoDup (l1 ++ l2) -> NoDup l2.
Proof. induction l1; simpl; intros; auto. inversion H; subst; auto. Qed.
Lemma NoDup_app_disj : forall A (l1 l2 : list A) x, NoDup (l1 ++ l2) -> In x l1 -> In x l2 -> False.
Proof.
  induction l1; simpl; intros l2 x H H1 H2; auto. inversion H; subst. destruct H1 as [->|H1].
  - apply H4. apply in_app_iff; auto.
  - eauto.
Qed.

Ltac prj := cbn [hash cfirst cweak clast maxSize currentSize maxHistorySize historySize fixedSize hits nearMiss
  farMiss currentBytes userSize lastActivity set_hash set_ptrs set_counts set_stats set_limits set_tuning
  live hist cap hcap fixed nhit nnear nfar floor seen lists caps stats tune keys fst snd].

(** unlink refines removal of the key. *)
Lemma unlink_rel : forall c a k, rel0 c a -> In k (keys a) ->
  exists c', unlink F fsz c k = Ok c' /\
    rel0 c' (lists F a (without F k (live F a)) (hwithout k (hist F a))).
Proof.
  intros c a k R Hin. destruct R. unfold keys in *.
  unfold unlink.
  destruct (in_dec Z.eq_dec k (map fst (live F a))) as [Hl|Hl].
  - (* live *)
    assert (Hh : ~ In k (hist F a)) by (intro; eapply NoDup_app_disj; eauto).
    apply in_map_iff in Hl. destruct Hl as [[k' f] [Ek Hl]]. simpl in Ek. subst k'.
    apply in_split in Hl. destruct Hl as [l1 [l2 El]].
    assert (Hnl : NoDup (map fst (live F a))) by (eapply NoDup_app_l; eauto).
    assert (Ew : without F k (live F a) = l1 ++ l2) by (rewrite El; apply without_split; rewrite <- El; auto).
    rewrite Ew, hwithout_notin by auto.
    assert (Ekeys : map fst (live F a) ++ hist F a = map fst l1 ++ k :: (map fst l2 ++ hist F a)).
    { rewrite El, map_app. simpl. rewrite <- app_assoc. auto. }
    assert (Hv : frames (hash F c) k = Some (Some f)).
    { rewrite r_view0. apply view_live; auto. rewrite El. apply in_app_iff; simpl; auto. }
    destruct (frames_Some _ _ _ Hv) as [n [Hn Hf]]. rewrite Hn.
    rewrite Ekeys in *.
    destruct (unlink_heap _ _ _ _ _ r_nodup0 r_seg0 Hn) as [Ep [En [h1 [h2 [E1 [E2 [Hs [Hk Hfr]]]]]]]].
    rewrite E1. cbn [obind]. rewrite E2. cbn [obind]. rewrite Hf.
    eexists; split; [reflexivity|].
    assert (Hnd' : NoDup (map fst (l1 ++ l2) ++ hist F a)).
    { rewrite map_app, <- app_assoc. eapply NoDup_remove_1; eauto. }
    pose proof (NoDup_remove_2 _ _ _ r_nodup0) as Hkn.
    constructor; prj; unfold keys; prj; rewrite ?map_app, <- ?app_assoc; auto.
    + rewrite map_app, <- app_assoc in Hnd'; auto.
    + eapply seg_ext; [|exact Hs]. intros x Hx. apply hdel_other. congruence.
    + intros x. apply view_eq; auto.
      * intros x0 f0 Hx. assert (x0 <> k).
        { intros ->. apply Hkn. rewrite app_assoc, <- map_app. apply in_app_iff. left.
          apply in_map_iff. exists (k, f0); auto. }
        unfold frames. rewrite hdel_other by auto. fold (frames h2 x0). rewrite Hfr, r_view0.
        apply view_live; [rewrite Ekeys; auto|]. rewrite El. apply in_app_iff in Hx. apply in_app_iff. simpl; tauto.
      * intros x0 Hx. assert (x0 <> k) by congruence.
        unfold frames. rewrite hdel_other by auto. fold (frames h2 x0). rewrite Hfr, r_view0.
        apply view_hist; auto. rewrite Ekeys; auto.
      * intros x0 Hx. unfold frames. destruct (Z.eq_dec x0 k).
        { subst. rewrite hdel_same. auto. }
        rewrite hdel_other by auto. fold (frames h2 x0). rewrite Hfr, r_view0.
        apply view_out. rewrite Ekeys. rewrite map_app, <- app_assoc in Hx. rewrite in_app_iff in *. simpl. intuition.
    + rewrite r_first0, En. rewrite !hd_or_app. destruct l1 as [|[y fy] l1]; simpl.
      * rewrite Z.eqb_refl. auto.
      * destruct (Z.eqb_spec y k); auto. subst. exfalso. apply Hkn. simpl; auto.
    + rewrite r_last0, Ep. rewrite last_or_app. simpl.
      destruct (list_snoc _ (map fst l2 ++ hist F a)) as [E0|[z [y E0]]]; rewrite E0.
      * simpl. rewrite Z.eqb_refl. rewrite app_nil_r. auto.
      * rewrite last_or_snoc. simpl. destruct (Z.eqb_spec y k).
        { subst. exfalso. apply Hkn. rewrite E0. apply in_app_iff. right. apply in_app_iff. simpl; auto. }
        rewrite last_or_app, last_or_snoc. auto.
    + rewrite r_weak0. destruct (hist F a) as [|y t]; auto. simpl.
      destruct (Z.eqb_spec y k); auto. subst. exfalso. apply Hh. simpl; auto.
    + rewrite r_cur0, El, !zlength_app, zlength_cons. lia.
    + rewrite r_bytes0, El, !total_app. simpl. lia.
    + rewrite El in r_sizes0. apply Forall_app in r_sizes0. destruct r_sizes0 as [S1 S2]. inversion S2; subst.
      apply Forall_app; auto.
    + rewrite El in r_mem0, r_sizes0. rewrite total_app in *. simpl in r_mem0.
      apply Forall_app in r_sizes0. destruct r_sizes0 as [S1 S2]. inversion S2; subst. simpl in *. lia.
  - (* history *)
    apply in_app_iff in Hin. destruct Hin as [Hin|Hin]; [contradiction|].
    rewrite without_notin by auto.
    pose proof (NoDup_app_r _ _ _ r_nodup0) as Hnh.
    apply in_split in Hin. destruct Hin as [l1 [l2 El]].
    rewrite El in Hnh. rewrite El, hwithout_split by auto.
    assert (Ekeys : map fst (live F a) ++ hist F a = (map fst (live F a) ++ l1) ++ k :: l2).
    { rewrite El, <- app_assoc. auto. }
    assert (Hv : frames (hash F c) k = Some None).
    { rewrite r_view0. apply view_hist; auto. rewrite El. apply in_app_iff; simpl; auto. }
    destruct (frames_Some _ _ _ Hv) as [n [Hn Hf]]. rewrite Hn.
    rewrite Ekeys in *.
    destruct (unlink_heap _ _ _ _ _ r_nodup0 r_seg0 Hn) as [Ep [En [h1 [h2 [E1 [E2 [Hs [Hk Hfr]]]]]]]].
    rewrite E1. cbn [obind]. rewrite E2. cbn [obind]. rewrite Hf.
    eexists; split; [reflexivity|].
    pose proof (NoDup_remove_2 _ _ _ r_nodup0) as Hkn.
    pose proof (NoDup_remove_1 _ _ _ r_nodup0) as Hnd'.
    constructor; prj; unfold keys; prj; rewrite ?app_assoc; auto.
    + eapply seg_ext; [|exact Hs]. intros x Hx. apply hdel_other. congruence.
    + intros x. apply view_eq; [rewrite app_assoc; auto| | |].
      * intros x0 f0 Hx. assert (x0 <> k).
        { intros ->. apply Hl. apply in_map_iff. exists (k, f0); auto. }
        unfold frames. rewrite hdel_other by auto. fold (frames h2 x0). rewrite Hfr, r_view0.
        apply view_live; auto. rewrite Ekeys; auto.
      * intros x0 Hx. assert (x0 <> k).
        { intros ->. apply Hkn. rewrite <- app_assoc. apply in_app_iff; auto. }
        unfold frames. rewrite hdel_other by auto. fold (frames h2 x0). rewrite Hfr, r_view0.
        apply view_hist; [rewrite Ekeys; auto|]. rewrite El. apply in_app_iff in Hx. apply in_app_iff. simpl; tauto.
      * intros x0 Hx. unfold frames. destruct (Z.eq_dec x0 k).
        { subst. rewrite hdel_same. auto. }
        rewrite hdel_other by auto. fold (frames h2 x0). rewrite Hfr, r_view0.
        apply view_out. rewrite Ekeys. rewrite app_assoc in Hx. rewrite in_app_iff in *. simpl. intuition.
    + rewrite r_first0, En. rewrite !hd_or_app. destruct (live F a) as [|[y fy] lv]; simpl.
      * destruct l1 as [|y l1]; simpl.
        { rewrite Z.eqb_refl. auto. }
        destruct (Z.eqb_spec y k); auto. subst. exfalso. apply Hkn. simpl; auto.
      * destruct (Z.eqb_spec y k); auto. subst. exfalso. apply Hkn. simpl; auto.
    + rewrite r_last0, Ep. rewrite last_or_app. simpl.
      destruct (list_snoc _ l2) as [->|[z [y ->]]].
      * simpl. rewrite Z.eqb_refl. rewrite app_nil_r. auto.
      * rewrite last_or_snoc. simpl. destruct (Z.eqb_spec y k).
        { subst. exfalso. apply Hkn. apply in_app_iff. right. apply in_app_iff. simpl; auto. }
        rewrite last_or_app, last_or_snoc. auto.
    + rewrite r_weak0, El, En. destruct l1 as [|y l1]; simpl.
      * rewrite Z.eqb_refl. auto.
      * destruct (Z.eqb_spec y k); auto. subst. exfalso. apply Hkn. apply in_app_iff. left. apply in_app_iff. simpl; auto.
    + rewrite r_histn0, El, !zlength_app, zlength_cons. lia.
Qed.

Lemma evict_one_rel : forall c a l k f, rel0 c a -> live F a = l ++ [(k, f)] ->
  exists c', evict_one F fsz c = Ok (c', fsz f) /\ rel0 c' (lists F a l (k :: hist F a)).
Proof.
  intros c a l k f R El. destruct R. unfold keys in *.
  assert (Ekeys : map fst (live F a) ++ hist F a = map fst l ++ k :: hist F a).
  { rewrite El, map_app, <- app_assoc. auto. }
  assert (Hv : frames (hash F c) k = Some (Some f)).
  { rewrite r_view0. apply view_live; auto. rewrite El. apply in_app_iff; simpl; auto. }
  destruct (frames_Some _ _ _ Hv) as [n [Hn Hf]].
  assert (Ew : (match cweak F c with
         | None => Ok (clast F c)
         | Some w => match hash F c w with Some n => Ok (n_prev F n) | None => UB end
         end) = Ok (Some k)).
  { rewrite r_weak0. destruct (hist F a) as [|w t] eqn:Eh; simpl.
    - rewrite r_last0, Ekeys. rewrite last_or_snoc. auto.
    - rewrite Ekeys in r_seg0. apply seg_app in r_seg0. destruct r_seg0 as [_ [_ [[fr Hw] _]]].
      rewrite Hw. auto. }
  unfold evict_one. rewrite Ew. cbn [obind]. rewrite Hn. unfold frame_bytes. rewrite Hf.
  eexists; split; [reflexivity|].
  rewrite Ekeys in *.
  assert (Hkn : ~ In k (map fst l ++ hist F a)) by (apply NoDup_remove_2 in r_nodup0; auto).
  constructor; prj; unfold keys; prj; auto.
  - eapply seg_links; [|exact r_seg0]. intros x m Hx Hm. destruct (Z.eq_dec x k).
    + subst. rewrite hset_same. rewrite Hn in Hm. inversion Hm; subst. eexists; reflexivity.
    + rewrite hset_other by auto. rewrite Hm. exists (n_frame F m). destruct m; auto.
  - intros x. apply view_eq; auto.
    + intros x0 f0 Hx. assert (x0 <> k).
      { intros ->. apply Hkn. apply in_app_iff. left. apply in_map_iff. exists (k, f0); auto. }
      unfold frames. rewrite hset_other by auto. fold (frames (hash F c) x0). rewrite r_view0.
      apply view_live; [rewrite Ekeys; auto|]. rewrite El. apply in_app_iff; auto.
    + intros x0 [<-|Hx]; unfold frames.
      * rewrite hset_same. auto.
      * assert (x0 <> k) by (intros ->; apply Hkn; apply in_app_iff; auto).
        rewrite hset_other by auto. fold (frames (hash F c) x0). rewrite r_view0.
        apply view_hist; auto. rewrite Ekeys; auto.
    + intros x0 Hx. assert (x0 <> k) by (intros ->; apply Hx; apply in_app_iff; simpl; auto).
      unfold frames. rewrite hset_other by auto. fold (frames (hash F c) x0). rewrite r_view0.
      apply view_out. rewrite Ekeys; auto.
  - rewrite r_cur0, El, zlength_app. change (zlength [(k, f)]) with 1. lia.
  - rewrite r_histn0, zlength_cons. lia.
  - rewrite r_bytes0, El, total_app. simpl. lia.
  - rewrite El in r_sizes0. apply Forall_app in r_sizes0. tauto.
  - rewrite El in *. rewrite total_app in r_mem0. simpl in r_mem0. apply Forall_app in r_sizes0.
    destruct r_sizes0 as [_ S]. inversion S; subst. simpl in *. lia.
Qed.

Lemma lists_lists : forall a l1 h1 l2 h2, lists F (lists F a l1 h1) l2 h2 = lists F a l2 h2.
Proof. reflexivity. Qed.
Lemma lists_same : forall a, lists F a (live F a) (hist F a) = a.
Proof. destruct a; reflexivity. Qed.

(** How many frames the eviction loop drops. *)
Fixpoint ecount (rl : list (Z * F)) (excess budget : Z) : nat :=
  match rl with
  | [] => 0
  | (_, f) :: t => if (0 <? excess) && (0 <? budget) then S (ecount t (excess - 1) (budget - fsz f)) else 0
  end.

Lemma firstn_snoc : forall A (l : list A) x n, (n <= length l)%nat -> firstn n (l ++ [x]) = firstn n l.
Proof. intros. rewrite firstn_app. replace (n - length l)%nat with 0%nat by lia. simpl. apply app_nil_r. Qed.
Lemma skipn_snoc : forall A (l : list A) x n, (n <= length l)%nat -> skipn n (l ++ [x]) = skipn n l ++ [x].
Proof. intros. rewrite skipn_app. replace (n - length l)%nat with 0%nat by lia. auto. Qed.

Lemma ecount_le : forall rl e b, (ecount rl e b <= length rl)%nat.
Proof. induction rl as [|[k f] t IH]; simpl; intros; auto. destruct ((0 <? e) && (0 <? b)); [specialize (IH (e-1) (b - fsz f))|]; lia. Qed.

Lemma evict_loop_rel : forall rl c a maxCount budget freed fuel,
  rel0 c a -> live F a = rev rl -> 0 <= maxCount -> (Z.to_nat (currentSize F c - maxCount) <= fuel)%nat ->
  let j := ecount rl (currentSize F c - maxCount) (budget - freed) in
  let m := (length rl - j)%nat in
  exists c' fr, evict_loop F fsz fuel c maxCount budget freed = Ok (c', fr) /\
    rel0 c' (lists F a (firstn m (live F a)) (map fst (skipn m (live F a)) ++ hist F a)).
Proof.
  induction rl as [|[k f] t IH]; intros c a maxCount budget freed fuel R El Hm Hfu; cbn zeta.
  - assert (Hc : currentSize F c = 0) by (rewrite (r_cur _ _ R), El; auto).
    destruct fuel as [|fuel]; cbn [evict_loop ecount];
    (destruct (Z.ltb_spec maxCount (currentSize F c)); [lia|]; cbn [andb];
     exists c, freed; split; auto; rewrite El; simpl; rewrite <- El at 1; rewrite lists_same; auto).
  - simpl rev in El.
    assert (Hc : currentSize F c = zlength t + 1).
    { rewrite (r_cur _ _ R), El, zlength_app, zlength_rev. auto. }
    pose proof (ecount_le t (currentSize F c - maxCount - 1) (budget - freed - fsz f)) as Hle.
    cbn [ecount].
    destruct ((0 <? currentSize F c - maxCount) && (0 <? budget - freed)) eqn:E.
    + apply andb_true_iff in E. destruct E as [E1 E2]. apply Z.ltb_lt in E1, E2.
      destruct fuel as [|fuel]; [lia|]. cbn [evict_loop].
      destruct (Z.ltb_spec maxCount (currentSize F c)); [|lia].
      destruct (Z.ltb_spec freed budget); [|lia]. cbn [andb].
      destruct (evict_one_rel c a (rev t) k f R El) as [c' [Ee R']]. rewrite Ee. cbn [obind fst snd].
      assert (Hc' : currentSize F c' = currentSize F c - 1).
      { rewrite (r_cur _ _ R'). prj. rewrite zlength_rev. lia. }
      destruct (IH c' _ maxCount budget (freed + fsz f) fuel R') as [c2 [fr [E3 R3]]]; auto; try lia.
      rewrite Hc' in R3. rewrite lists_lists in R3.
      exists c2, fr. split; auto.
      replace (currentSize F c - 1 - maxCount) with (currentSize F c - maxCount - 1) in R3 by lia.
      replace (budget - (freed + fsz f)) with (budget - freed - fsz f) in R3 by lia.
      set (jj := ecount t (currentSize F c - maxCount - 1) (budget - freed - fsz f)) in *.
      cbn [lists live hist] in R3. cbn [length]. replace (S (length t) - S jj)%nat with (length t - jj)%nat by lia.
      rewrite El. rewrite firstn_snoc, skipn_snoc by (rewrite rev_length; lia).
      rewrite map_app, <- app_assoc. exact R3.
    + assert (Ev : evict_loop F fsz fuel c maxCount budget freed = Ok (c, freed)).
      { destruct fuel; cbn [evict_loop];
        (replace ((maxCount <? currentSize F c) && (freed <? budget)) with false; auto;
         symmetry; apply andb_false_iff; apply andb_false_iff in E;
         rewrite !Z.ltb_ge in *; lia). }
      exists c, freed. split; auto.
      replace (length ((k, f) :: t) - 0)%nat with (length (live F a)) by (rewrite El, app_length, rev_length; simpl; lia).
      rewrite firstn_all, skipn_all. simpl. rewrite lists_same. auto.
Qed.

Lemma hist_loop_rel : forall rh c a fuel,
  rel0 c a -> hist F a = rev rh -> (Z.to_nat (historySize F c - maxHistorySize F c) <= fuel)%nat ->
  exists c', hist_loop F fsz fuel c = Ok c' /\
    rel0 c' (lists F a (live F a) (firstn (Z.to_nat (hcap F a)) (hist F a))).
Proof.
  induction rh as [|k t IH]; intros c a fuel R Eh Hfu.
  - assert (Hs : historySize F c = 0) by (rewrite (r_histn _ _ R), Eh; auto).
    pose proof (r_nonneg _ _ R) as [_ [Hn _]]. pose proof (r_maxh _ _ R) as Hmx.
    exists c. split.
    + destruct fuel; cbn [hist_loop]; destruct (clast F c); auto;
      destruct (Z.ltb_spec (maxHistorySize F c) (historySize F c)); auto; lia.
    + rewrite Eh. simpl. rewrite firstn_nil. replace (@nil Z) with (hist F a) by auto. rewrite lists_same. auto.
  - simpl rev in Eh.
    assert (Hs : historySize F c = zlength t + 1).
    { rewrite (r_histn _ _ R), Eh, zlength_app, zlength_rev. auto. }
    pose proof (r_nonneg _ _ R) as [_ [Hn _]]. pose proof (r_maxh _ _ R) as Hmx.
    assert (Hl : clast F c = Some k).
    { rewrite (r_last _ _ R). unfold keys. rewrite Eh, app_assoc. apply last_or_snoc. }
    destruct (Z.ltb_spec (maxHistorySize F c) (historySize F c)) as [Hlt|Hge].
    + destruct fuel as [|fuel]; [lia|]. cbn [hist_loop]. rewrite Hl.
      destruct (Z.ltb_spec (maxHistorySize F c) (historySize F c)); [|lia].
      assert (Hin : In k (keys a)) by (unfold keys; rewrite Eh; rewrite !in_app_iff; simpl; auto).
      destruct (unlink_rel c a k R Hin) as [c' [Eu R']]. rewrite Eu. cbn [obind].
      pose proof (r_nodup _ _ R) as Hnd. unfold keys in Hnd.
      rewrite without_notin in R'.
      2:{ intro Hx. eapply NoDup_app_disj; [exact Hnd|exact Hx|]. rewrite Eh. apply in_app_iff; simpl; auto. }
      assert (Ehw : hwithout k (hist F a) = rev t).
      { rewrite Eh. rewrite hwithout_split. - apply app_nil_r. - rewrite <- Eh. eapply NoDup_app_r; eauto. }
      rewrite Ehw in R'.
      destruct (IH c' _ fuel R') as [c2 [E2 R2]]; auto.
      { rewrite (r_histn _ _ R'), (r_maxh _ _ R'). prj. rewrite zlength_rev. lia. }
      exists c2. split; auto. rewrite lists_lists in R2. cbn [lists live hist hcap] in R2. rewrite Eh.
      rewrite firstn_snoc; auto. rewrite rev_length. unfold zlength in *. lia.
    + exists c. split.
      * destruct fuel; cbn [hist_loop]; rewrite Hl; destruct (Z.ltb_spec (maxHistorySize F c) (historySize F c)); auto; lia.
      * rewrite firstn_all2; [rewrite lists_same; auto|]. rewrite Eh, app_length, rev_length. simpl.
        unfold zlength in *. lia.
Qed.

Lemma evictFrames_rel : forall c a maxCount budget, rel0 c a -> 0 <= maxCount ->
  exists c' fr, evictFrames F fsz c maxCount budget = Ok (c', fr) /\
    rel0 c' (keep F a (length (live F a) - ecount (rev (live F a)) (zlength (live F a) - maxCount) budget)).
Proof.
  intros c a maxCount budget R Hm. unfold evictFrames.
  destruct (evict_loop_rel (rev (live F a)) c a maxCount budget 0 (Z.to_nat (currentSize F c - maxCount)))
    as [c1 [fr [E1 R1]]]; auto.
  { rewrite rev_involutive; auto. }
  rewrite E1. cbn [obind fst snd].
  rewrite rev_length, Z.sub_0_r, (r_cur _ _ R) in R1.
  edestruct hist_loop_rel as [c2 [E2 R2]]; [exact R1|symmetry; apply rev_involutive|apply le_n|].
  rewrite E2. cbn [obind]. exists c2, fr. split; auto.
Qed.

Lemma ecount_settle : forall rl excess budget, Forall (fun p => 0 <= fsz (snd p)) rl ->
  fold_right (fun p s => fsz (snd p) + s) 0 rl < budget ->
  ecount rl excess budget = Nat.min (length rl) (Z.to_nat excess).
Proof.
  induction rl as [|[k f] t IH]; intros e b Hs Hb; cbn [ecount fold_right length] in *.
  - auto.
  - inversion Hs; subst. cbn [snd] in *. assert (0 <= fold_right (fun p s => fsz (snd p) + s) 0 t).
    { clear -H2. induction H2; simpl; lia. }
    destruct (Z.ltb_spec 0 e); cbn [andb].
    + destruct (Z.ltb_spec 0 b); [|lia]. rewrite IH by (auto; lia). lia.
    + lia.
Qed.

Lemma fold_rev_total : forall l, fold_right (fun p s => fsz (snd p) + s) 0 (rev l) = total l.
Proof.
  induction l; simpl; auto. change (fold_right (fun p s => fsz (snd p) + s) 0 (rev l ++ [a])) with (total (rev l ++ [a])).
  rewrite total_app. unfold CacheSpec.total in *. rewrite IHl. simpl. lia.
Qed.

Lemma keep_firstn : forall a n m, firstn n (live F a) = firstn m (live F a) ->
  skipn n (live F a) = skipn m (live F a) -> keep F a n = keep F a m.
Proof. intros. unfold keep. congruence. Qed.

Lemma settle_bounded : forall a, 0 <= cap F a -> 0 <= hcap F a -> bounded (settle F a).
Proof.
  intros a H1 H2. unfold bounded, settle, keep. prj. unfold zlength. rewrite !firstn_length. lia.
Qed.

Lemma evict_settle : forall c a, rel0 c a ->
  exists c' fr, evictFrames F fsz c (maxSize F c) SIZE_MAX = Ok (c', fr) /\ rel c' (settle F a).
Proof.
  intros c a R. pose proof (r_nonneg _ _ R) as [Hc [Hh _]].
  destruct (evictFrames_rel c a (maxSize F c) SIZE_MAX R) as [c' [fr [E R']]].
  { rewrite (r_max _ _ R); auto. }
  exists c', fr. split; auto. split.
  - rewrite ecount_settle in R'.
    + unfold settle. replace (keep F a (Z.to_nat (cap F a))) with
        (keep F a (length (live F a) - Nat.min (length (rev (live F a))) (Z.to_nat (zlength (live F a) - maxSize F c)))); auto.
      rewrite rev_length. rewrite (r_max _ _ R).
      destruct (Z_le_dec (zlength (live F a)) (cap F a)).
      * unfold zlength in *. apply keep_firstn.
        { rewrite !firstn_all2; auto; lia. }
        { rewrite !skipn_all2; auto; lia. }
      * f_equal. unfold zlength in *. lia.
    + apply Forall_rev. apply (r_sizes _ _ R).
    + rewrite fold_rev_total. apply (r_mem _ _ R).
  - apply settle_bounded; auto.
Qed.

End Refine.
